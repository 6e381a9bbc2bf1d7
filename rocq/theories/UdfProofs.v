(** * Specialization keeps what functions compute (proofs for C76) *)
From stdpp Require Import base numbers list gmap.
From Verif Require Import CppBase UdfModel UdfSpec.

Section exp_ind.
  Context {val op : Type} (P : exp val op → Prop).
  Context (HVar : ∀ i, P (Var i)) (HCst : ∀ c, P (Cst c)) (HOp : ∀ o es, Forall P es → P (Op o es))
          (HCall : ∀ k es, Forall P es → P (Call k es)) (HMap : ∀ k e, P e → P (MapE k e))
          (HIf : ∀ c t e, P c → P t → P e → P (If c t e)).
  Fixpoint exp_ind' (e : exp val op) : P e :=
    let fix go (es : list (exp val op)) : Forall P es :=
      match es with [] => Forall_nil_2 P | e :: es' => Forall_cons_2 P e es' (exp_ind' e) (go es') end in
    match e with
    | Var i => HVar i | Cst c => HCst c | Op o es => HOp o es (go es) | Call k es => HCall k es (go es)
    | MapE k e => HMap k e (exp_ind' e) | If c t e => HIf c t e (exp_ind' c) (exp_ind' t) (exp_ind' e)
    end.
End exp_ind.

Lemma mapM_ext_Forall {A B} (f g : A → option B) l : Forall (fun x => f x = g x) l → mapM f l = mapM g l.
Proof. induction 1 as [|x l Hx _ IH]; [done|]. cbn. by rewrite Hx, IH. Qed.
Lemma mapM_fmap_ {A B C} (f : B → option C) (g : A → B) l : mapM f (g <$> l) = mapM (f ∘ g) l.
Proof. induction l as [|x l IH]; [done|]. cbn. by rewrite IH. Qed.
Lemma Forall_app_in {A} (P : A → Prop) l1 l2 : (∀ x, x ∈ l1 ++ l2 → P x) → (∀ x, x ∈ l1 → P x) /\ (∀ x, x ∈ l2 → P x).
Proof. intros H. split; intros x Hx; apply H; apply elem_of_app; eauto. Qed.

Lemma sublist_in {A} (l k : list A) x : l `sublist_of` k → x ∈ l → x ∈ k.
Proof. intros H Hx. eapply elem_of_submseteq; [done|]. by apply sublist_submseteq. Qed.
Lemma sublist_NoDup_ {A} (l k : list A) : NoDup k → l `sublist_of` k → NoDup l.
Proof.
  intros Hk H. induction H as [|x l k H IH|x l k H IH]; [constructor|..]; apply NoDup_cons in Hk as [Hx Hk].
  - constructor; [|by apply IH]. intros Hin. apply Hx. by eapply sublist_in.
  - by apply IH.
Qed.

Section proofs.
  Context {val op : Type}.
  Context (vty : val → ty) (truth : val → option bool) (fold : op → list val → option val) (opty : op → list ty → ty).
  Context (opsem : op → list val → option val).
  Context (elems : val → option (list val)) (rebuild : val → list val → option val).
  Context (Hfold : ∀ o cs c, fold o cs = Some c → opsem o cs = Some c).
  Context (ipa : bool).
  Notation ev := (ev truth opsem elems rebuild).
  Notation app := (app truth opsem elems rebuild).
  Notation simp := (simp truth fold).
  Notation typ := (typ vty opty).
  Notation infer_fn := (infer_fn vty truth fold opty).
  Notation exp := (exp val op).
  Notation func := (func val op).
  Notation st := (st val op).
  Implicit Types (e : exp) (es : list exp) (F G : func) (s : st).

  (** ** Local changes of an expression *)
  Lemma ev_ext call call' args S e : (∀ f vs, call f vs = call' f vs) → ev call args S e = ev call' args S e.
  Proof.
    intros Hc. induction e as [| |o es IH|k es IH|k e IH|c t e IHc IHt IHe] using exp_ind'; cbn; try done.
    - by rewrite (mapM_ext_Forall _ _ _ IH).
    - rewrite (mapM_ext_Forall _ _ _ IH). destruct (mapM _ _); cbn; [|done]. destruct (S !! k); cbn; [|done]. apply Hc.
    - rewrite IH. destruct (ev call' args S e) as [v|]; [|done]. cbn. destruct (elems v) as [l|]; [|done]. cbn. destruct (S !! k) as [s|]; [|done]. cbn.
      rewrite (mapM_ext_Forall _ (fun x => call' s.1 [x]) l); [done|]. apply Forall_true. intros x. apply Hc.
    - rewrite IHc, IHt, IHe. done.
  Qed.
  Lemma mapM_const_ev call args S es cs : mapM const_of es = Some cs → mapM (ev call args S) es = Some cs.
  Proof.
    revert cs. induction es as [|e es IH]; intros cs H; [done|]. cbn in *. destruct e; cbn in *; try done.
    destruct (mapM const_of es) as [cs'|]; [|done]. cbn in *. by rewrite (IH cs').
  Qed.
  Lemma simp_ev call args S e : ev call args S (simp e) = ev call args S e.
  Proof.
    induction e as [| |o es IH|k es IH|k e IH|c t e IHc IHt IHe] using exp_ind'; try done.
    - cbn [UdfModel.simp].
      assert (Hes : mapM (ev call args S) (simp <$> es) = mapM (ev call args S) es).
      { rewrite mapM_fmap_. by apply mapM_ext_Forall. }
      destruct (mapM const_of (simp <$> es)) as [cs|] eqn:Ec; [destruct (fold o cs) as [c|] eqn:Ef|].
      + cbn. rewrite <- Hes, (mapM_const_ev call args S _ _ Ec). cbn. symmetry. by apply Hfold.
      + cbn [UdfSpec.ev]. by rewrite Hes.
      + cbn [UdfSpec.ev]. by rewrite Hes.
    - cbn. rewrite mapM_fmap_. by rewrite (mapM_ext_Forall (_ ∘ simp) (ev call args S) es IH).
    - cbn. by rewrite IH.
    - cbn [UdfModel.simp UdfSpec.ev]. rewrite <- IHc, <- IHt, <- IHe.
      destruct (simp c) as [| b | | | |]; try done. cbn. destruct (truth b) as [[]|] eqn:Eb; cbn; rewrite ?Eb; done.
  Qed.
  Lemma subst_ev call args S cs e :
    (∀ i c, cs !! i = Some (Some c) → args !! i = Some c) → ev call args S (subst cs e) = ev call args S e.
  Proof.
    intros Hcs. induction e as [i| |o es IH|k es IH|k e IH|c t e IHc IHt IHe] using exp_ind'; cbn; try done.
    - destruct (cs !! i) as [[c|]|] eqn:Ei; cbn; try done. symmetry. by apply Hcs.
    - rewrite mapM_fmap_. by rewrite (mapM_ext_Forall (_ ∘ subst cs) (ev call args S) es IH).
    - rewrite mapM_fmap_. by rewrite (mapM_ext_Forall (_ ∘ subst cs) (ev call args S) es IH).
    - by rewrite IH.
    - by rewrite IHc, IHt, IHe.
  Qed.

  (** The calls of a changed expression. *)
  Lemma calls_subst cs e : calls_of (subst cs e) = (fun ke : nat * list exp => (ke.1, subst cs <$> ke.2)) <$> calls_of e.
  Proof.
    induction e as [i| |o es IH|k es IH|k e IH|c t e IHc IHt IHe] using exp_ind'; cbn; try done.
    - by destruct (cs !! i) as [[c|]|].
    - induction IH as [|e es He _ IH]; [done|]. cbn. by rewrite fmap_app, He, IH.
    - rewrite fmap_app. f_equal. induction IH as [|e es He _ IH]; [done|]. cbn. by rewrite fmap_app, He, IH.
    - by rewrite !fmap_app, IHc, IHt, IHe.
  Qed.
  Lemma maps_subst cs e : maps_of (subst cs e) = (fun ke : nat * exp => (ke.1, subst cs ke.2)) <$> maps_of e.
  Proof.
    induction e as [i| |o es IH|k es IH|k e IH|c t e IHc IHt IHe] using exp_ind'; cbn; try done.
    - by destruct (cs !! i) as [[c|]|].
    - induction IH as [|e es He _ IH]; [done|]. cbn. by rewrite fmap_app, He, IH.
    - induction IH as [|e es He _ IH]; [done|]. cbn. by rewrite fmap_app, He, IH.
    - by rewrite fmap_app, IH.
    - by rewrite !fmap_app, IHc, IHt, IHe.
  Qed.
  Definition simp_call (ke : nat * list exp) : nat * list exp := (ke.1, simp <$> ke.2).
  Definition simp_map (ke : nat * exp) : nat * exp := (ke.1, simp ke.2).
  Lemma bind_sublist {A B} (f g : A → list B) l : Forall (fun x => f x `sublist_of` g x) l → (l ≫= f) `sublist_of` (l ≫= g).
  Proof. induction 1 as [|x l Hx _ IH]; [done|]. cbn. by apply sublist_app. Qed.
  Lemma fmap_bind_ {A B C} (f : B → C) (g : A → list B) l : f <$> (l ≫= g) = l ≫= (fun x => f <$> g x).
  Proof. induction l as [|x l IH]; [done|]. cbn. by rewrite fmap_app, IH. Qed.
  Lemma bind_fmap_ {A B C} (f : A → B) (g : B → list C) l : (f <$> l) ≫= g = l ≫= (fun x => g (f x)).
  Proof. induction l as [|x l IH]; [done|]. cbn. by rewrite IH. Qed.
  Lemma calls_simp e : calls_of (simp e) `sublist_of` (simp_call <$> calls_of e).
  Proof.
    induction e as [i| |o es IH|k es IH|k e IH|c t e IHc IHt IHe] using exp_ind'; cbn [UdfModel.simp]; try done.
    - assert (((simp <$> es) ≫= calls_of) `sublist_of` (simp_call <$> (es ≫= calls_of))).
      { rewrite fmap_bind_, bind_fmap_. by apply bind_sublist. }
      destruct (mapM const_of (simp <$> es)) as [cs|]; [destruct (fold o cs)|]; cbn; try done. apply sublist_nil_l.
    - cbn. rewrite fmap_app. apply sublist_app; [|done]. rewrite fmap_bind_, bind_fmap_. by apply bind_sublist.
    - cbn [calls_of]. rewrite !fmap_app.
      assert (Hg : ∀ c', c' = simp c → calls_of (If c' (simp t) (simp e)) `sublist_of`
                     (simp_call <$> calls_of c) ++ (simp_call <$> calls_of t) ++ (simp_call <$> calls_of e)).
      { intros c' ->. cbn. by repeat apply sublist_app. }
      destruct (simp c) as [| b | | | |] eqn:Ec; try (by apply Hg). destruct (truth b) as [[]|]; [| |by apply Hg].
      + by apply sublist_inserts_l, sublist_inserts_r.
      + by apply sublist_inserts_l, sublist_inserts_l.
  Qed.
  Lemma maps_simp e : maps_of (simp e) `sublist_of` (simp_map <$> maps_of e).
  Proof.
    induction e as [i| |o es IH|k es IH|k e IH|c t e IHc IHt IHe] using exp_ind'; cbn [UdfModel.simp]; try done.
    - assert (((simp <$> es) ≫= maps_of) `sublist_of` (simp_map <$> (es ≫= maps_of))).
      { rewrite fmap_bind_, bind_fmap_. by apply bind_sublist. }
      destruct (mapM const_of (simp <$> es)) as [cs|]; [destruct (fold o cs)|]; cbn; try done. apply sublist_nil_l.
    - cbn. rewrite fmap_bind_, bind_fmap_. by apply bind_sublist.
    - cbn. rewrite fmap_app. by apply sublist_app.
    - cbn [maps_of]. rewrite !fmap_app.
      assert (Hg : ∀ c', c' = simp c → maps_of (If c' (simp t) (simp e)) `sublist_of`
                     (simp_map <$> maps_of c) ++ (simp_map <$> maps_of t) ++ (simp_map <$> maps_of e)).
      { intros c' ->. cbn. by repeat apply sublist_app. }
      destruct (simp c) as [| b | | | |] eqn:Ec; try (by apply Hg). destruct (truth b) as [[]|]; [| |by apply Hg].
      + by apply sublist_inserts_l, sublist_inserts_r.
      + by apply sublist_inserts_l, sublist_inserts_l.
  Qed.
  Lemma calls_simp_in e k es' : (k, es') ∈ calls_of (simp e) → ∃ es, (k, es) ∈ calls_of e /\ es' = simp <$> es.
  Proof.
    intros H. pose proof (sublist_in _ _ _ (calls_simp e) H) as H'.
    apply elem_of_list_fmap in H' as ([k1 es] & [= -> ->] & H'). eauto.
  Qed.
  Lemma maps_simp_in e k e1 : (k, e1) ∈ maps_of (simp e) → ∃ e2, (k, e2) ∈ maps_of e /\ e1 = simp e2.
  Proof.
    intros H. pose proof (sublist_in _ _ _ (maps_simp e) H) as H'.
    apply elem_of_list_fmap in H' as ([k1 es] & [= -> ->] & H'). eauto.
  Qed.
  Definition ids e : list nat := (calls_of e).*1 ++ (maps_of e).*1.
  Lemma ids_simp e : NoDup (ids e) → NoDup (ids (simp e)).
  Proof.
    unfold ids. intros H. eapply sublist_NoDup_; [exact H|]. apply sublist_app.
    - etrans; [apply (fmap_sublist fst), calls_simp|]. rewrite <- list_fmap_compose. done.
    - etrans; [apply (fmap_sublist fst), maps_simp|]. rewrite <- list_fmap_compose. done.
  Qed.
  Lemma ids_subst cs e : ids (subst cs e) = ids e.
  Proof. unfold ids. rewrite calls_subst, maps_subst, <- !list_fmap_compose. done. Qed.

  (** ** The functions of a program after a change *)
  Lemma app_S M d f args : app M (S d) f args = (F ← M !! f; ev (app M d) args (sites F) (body F)).
  Proof. done. Qed.
  (** A new function that nothing calls. *)
  Definition refs_ok (M : gmap name func) : Prop :=
    ∀ n F k g t, M !! n = Some F → k ∈ ids (body F) → sites F !! k = Some (g, t) → is_Some (M !! g).
  Lemma ids_call_mid (k : nat) es o : k ∈ ids (Call k es : exp) /\ k ∈ ids (MapE k o : exp).
  Proof.
    unfold ids. cbn. rewrite !fmap_app. split; apply elem_of_app; [left|right]; apply elem_of_app; right; cbn; by apply elem_of_list_singleton.
  Qed.
  Lemma ids_sub_op o es e k : e ∈ es → k ∈ ids e → k ∈ ids (Op o es).
  Proof.
    unfold ids. cbn. intros He [H|H]%elem_of_app; apply elem_of_app; [left|right];
      apply elem_of_list_fmap in H as (x & -> & Hx); apply elem_of_list_fmap_1, elem_of_list_bind; eauto.
  Qed.
  Lemma ids_sub_call k0 es e k : e ∈ es → k ∈ ids e → k ∈ ids (Call k0 es).
  Proof.
    unfold ids. cbn. rewrite fmap_app. intros He [H|H]%elem_of_app; apply elem_of_app; [left; apply elem_of_app; left|right];
      apply elem_of_list_fmap in H as (x & -> & Hx); apply elem_of_list_fmap_1, elem_of_list_bind; eauto.
  Qed.
  Lemma ids_sub_map k0 e k : k ∈ ids e → k ∈ ids (MapE k0 e).
  Proof.
    unfold ids. cbn. rewrite fmap_app. intros [H|H]%elem_of_app; apply elem_of_app; [by left|right; apply elem_of_app; by left].
  Qed.
  Lemma ids_sub_if c t e k : k ∈ ids c \/ k ∈ ids t \/ k ∈ ids e → k ∈ ids (If c t e).
  Proof. unfold ids. cbn. rewrite !fmap_app, !elem_of_app. naive_solver. Qed.

  (** The value of an expression in which only the calls at sites of the expression matter. *)
  Lemma ev_sites call call' args S S' e :
    (∀ k es vs, (k, es) ∈ calls_of e → mapM (ev call args S) es = Some vs →
       (gt ← S !! k; call gt.1 vs) = (gt ← S' !! k; call' gt.1 vs)) →
    (∀ k e1 x, (k, e1) ∈ maps_of e → (gt ← S !! k; call gt.1 [x]) = (gt ← S' !! k; call' gt.1 [x])) →
    (∀ k, k ∈ (maps_of e).*1 → is_Some (S !! k) ↔ is_Some (S' !! k)) →
    ev call args S e = ev call' args S' e.
  Proof.
    induction e as [i| |o es IH|k es IH|k e IH|c t e IHc IHt IHe] using exp_ind'; intros H1 H2 H3; try done.
    - cbn [UdfSpec.ev]. rewrite (mapM_ext_Forall _ (ev call' args S') es); [done|]. rewrite Forall_forall in IH |- *. intros e He.
      apply IH; [done| | |].
      + intros k es' vs Hk. apply H1. cbn. apply elem_of_list_bind. eauto.
      + intros k e' x Hk. apply (H2 k e'). cbn. apply elem_of_list_bind. eauto.
      + intros k Hk. apply H3. cbn. apply elem_of_list_fmap in Hk as (x & -> & Hx). apply elem_of_list_fmap_1, elem_of_list_bind. eauto.
    - assert (He : mapM (ev call args S) es = mapM (ev call' args S') es).
      { apply mapM_ext_Forall. rewrite Forall_forall in IH |- *. intros e He. apply IH; [done| | |].
        + intros k' es' vs Hk. apply H1. cbn. apply elem_of_app. left. apply elem_of_list_bind. eauto.
        + intros k' e' x Hk. apply (H2 k' e'). cbn. apply elem_of_list_bind. eauto.
        + intros k' Hk. apply H3. cbn. apply elem_of_list_fmap in Hk as (x & -> & Hx). apply elem_of_list_fmap_1, elem_of_list_bind. eauto. }
      cbn [UdfSpec.ev]. rewrite <- He. destruct (mapM (ev call args S) es) as [vs|] eqn:Ev; [|done]. cbn.
      apply (H1 k es vs); [|done]. cbn. apply elem_of_app. right. by apply elem_of_list_singleton.
    - cbn [UdfSpec.ev]. rewrite IH.
      + destruct (ev call' args S' e) as [v|]; [|done]. cbn. destruct (elems v) as [xs|]; [|done]. cbn.
        assert (Hin : (k, e) ∈ maps_of (MapE k e)). { cbn. apply elem_of_app. right. by apply elem_of_list_singleton. }
        assert (Hik : is_Some (S !! k) ↔ is_Some (S' !! k)). { apply H3. apply elem_of_list_fmap. by exists (k, e). }
        destruct (S !! k) as [gt|] eqn:E1; destruct (S' !! k) as [gt'|] eqn:E2; [|by destruct (proj1 Hik (ex_intro _ _ eq_refl))|by destruct (proj2 Hik (ex_intro _ _ eq_refl))|done]. cbn.
        rewrite (mapM_ext_Forall _ (fun x => call' gt'.1 [x]) xs); [done|]. apply Forall_forall. intros x _.
        pose proof (H2 k e x Hin) as Hx. rewrite E1, E2 in Hx. done.
      + intros k' es' vs Hk. by apply H1.
      + intros k' e' x Hk. apply (H2 k' e'). cbn. apply elem_of_app. by left.
      + intros k' Hk. apply H3. cbn. rewrite fmap_app. apply elem_of_app. by left.
    - cbn [UdfSpec.ev]. cbn [calls_of maps_of] in H1, H2, H3.
      rewrite IHc, IHt, IHe; [done|..]; intros; try (eapply H1; [|done]; rewrite !elem_of_app; eauto);
        try (eapply H2; rewrite !elem_of_app; eauto); try (apply H3; rewrite !fmap_app, !elem_of_app; eauto).
  Qed.
End proofs.
