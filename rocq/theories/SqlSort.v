(** Stable sorting and runs of equal elements ([ssort] and [runs]). *)
From stdpp Require Import base numbers sorting list strings.
From Verif Require Import CppBase SqlSyntax SqlModel SqlSpec OrderSpec.

Lemma elem_concat_iff {A} (x : A) gs : x ∈ concat gs <-> exists g, g ∈ gs /\ x ∈ g.
Proof. rewrite elem_of_list_In, in_concat. setoid_rewrite elem_of_list_In. done. Qed.

Section sort.
  Context {A : Type} (lt : A -> A -> bool) (W : weak_order lt).
  Lemma irr x : lt x x = false. Proof. apply W. Qed.
  Lemma lt_tr x y z : lt x y = true -> lt y z = true -> lt x z = true. Proof. apply W. Qed.
  Lemma lt_ntr x y z : lt y x = false -> lt z y = false -> lt z x = false.
  Proof. intros H1 H2. destruct (lt z x) eqn:E; [|done]. destruct W as (_ & _ & W3). destruct (W3 z y x E); congruence. Qed.
  Lemma lt_asym x y : lt x y = true -> lt y x = false.
  Proof. intros H. destruct (lt y x) eqn:E; [|done]. pose proof (lt_tr _ _ _ H E) as X. by rewrite irr in X. Qed.
  Lemma same_refl x : same lt x x = true. Proof. unfold same. by rewrite irr. Qed.
  Lemma same_sym x y : same lt x y = same lt y x. Proof. unfold same. by rewrite andb_comm. Qed.
  Lemma same_iff x y : same lt x y = true <-> lt x y = false /\ lt y x = false.
  Proof. unfold same. destruct (lt x y), (lt y x); cbn; naive_solver. Qed.
  Lemma same_tr x y z : same lt x y = true -> same lt y z = true -> same lt x z = true.
  Proof. rewrite !same_iff. intros [H1 H2] [H3 H4]. split; eapply lt_ntr; eauto. Qed.
  Lemma lt_same_l x y z : same lt x y = true -> lt x z = lt y z.
  Proof.
    intros [H1 H2]%same_iff. destruct W as (_ & _ & W3). destruct (lt x z) eqn:E1, (lt y z) eqn:E2; try done.
    - destruct (W3 x y z E1); congruence.
    - destruct (W3 y x z E2); congruence.
  Qed.
  Lemma lt_same_r x y z : same lt x y = true -> lt z x = lt z y.
  Proof.
    intros [H1 H2]%same_iff. destruct W as (_ & _ & W3). destruct (lt z x) eqn:E1, (lt z y) eqn:E2; try done.
    - destruct (W3 z y x E1); congruence.
    - destruct (W3 z x y E2); congruence.
  Qed.

  Lemma sinsert_perm x l : sinsert lt x l ≡ₚ x :: l.
  Proof. induction l as [|y l IH]; cbn; [done|]. destruct (lt y x); [|done]. rewrite IH. apply perm_swap. Qed.
  Lemma ssort_perm l : ssort lt l ≡ₚ l.
  Proof. induction l as [|x l IH]; cbn; [done|]. rewrite sinsert_perm. by constructor. Qed.
  Lemma sinsert_sorted x l : StronglySorted (fun x y => lt y x = false) l -> StronglySorted (fun x y => lt y x = false) (sinsert lt x l).
  Proof.
    induction 1 as [|y l Hl IH Hy]; cbn; [repeat constructor|]. destruct (lt y x) eqn:E.
    - constructor; [done|]. apply Forall_forall. intros z Hz. rewrite sinsert_perm in Hz. apply elem_of_cons in Hz as [->|Hz]; [by apply lt_asym|].
      rewrite Forall_forall in Hy. by apply Hy.
    - constructor; [by constructor|]. constructor; [done|]. eapply Forall_impl; [exact Hy|]. cbn. intros z Hz. by eapply lt_ntr.
  Qed.
  Lemma ssort_sorted l : StronglySorted (fun x y => lt y x = false) (ssort lt l).
  Proof. induction l; cbn; [constructor|by apply sinsert_sorted]. Qed.
  Lemma sinsert_stable x z l : filter (fun y => same lt z y = true) (sinsert lt x l) = filter (fun y => same lt z y = true) (x :: l).
  Proof.
    induction l as [|y l IH]; cbn [sinsert]; [done|]. destruct (lt y x) eqn:E; [|done].
    rewrite !filter_cons, IH, !filter_cons. destruct (decide (same lt z y = true)) as [H1|H1], (decide (same lt z x = true)) as [H2|H2]; try done.
    exfalso. rewrite same_sym in H1. pose proof (same_tr _ _ _ H1 H2) as H3. apply same_iff in H3. destruct H3. congruence.
  Qed.
  Lemma ssort_stable z l : filter (fun y => same lt z y = true) (ssort lt l) = filter (fun y => same lt z y = true) l.
  Proof. induction l as [|x l IH]; cbn [ssort]; [done|]. rewrite sinsert_stable, !filter_cons, IH. done. Qed.
  Theorem ssort_ok l : in_order lt l (ssort lt l).
  Proof. split; [apply ssort_perm|]. split; [apply ssort_sorted|]. intros x _. apply ssort_stable. Qed.

  (** runs of a sorted list *)
  Lemma runs_concat l : concat (runs lt l) = l.
  Proof.
    induction l as [|x l IH]; cbn; [done|]. destruct (runs lt l) as [|[|y g] gs] eqn:E; cbn in *; [by rewrite <- IH|by rewrite <- IH|].
    destruct (lt x y || lt y x); cbn; by rewrite <- IH.
  Qed.
  Lemma runs_ne l : Forall (fun g => g <> []) (runs lt l).
  Proof.
    induction l as [|x l IH]; cbn; [constructor|]. destruct (runs lt l) as [|[|y g] gs]; [by repeat constructor| |].
    - apply Forall_cons in IH as [? _]. done.
    - apply Forall_cons in IH as [_ IH]. destruct (lt x y || lt y x); repeat (constructor; try done).
  Qed.
  Lemma runs_spec l : StronglySorted (fun x y => lt y x = false) l ->
    Forall (fun g => forall x y, x ∈ g -> y ∈ g -> same lt x y = true) (runs lt l) /\ StronglySorted (fun g h => forall x y, x ∈ g -> y ∈ h -> lt x y = true) (runs lt l).
  Proof.
    induction 1 as [|x l Hl IH Hx]; cbn; [split; constructor|]. destruct IH as [I1 I2]. pose proof (runs_concat l) as Hc. pose proof (runs_ne l) as Hn.
    destruct (runs lt l) as [|[|y g] gs] eqn:E.
    - split; [|repeat constructor]. constructor; [|constructor]. intros a b Ha%elem_of_list_singleton Hb%elem_of_list_singleton. subst. apply same_refl.
    - apply Forall_cons in Hn as [? _]. done.
    - cbn in Hc. assert (lt y x = false) as Hyx. { rewrite Forall_forall in Hx. apply Hx. rewrite <- Hc. left. }
      rewrite Hyx, orb_false_r. apply Forall_cons in I1 as [I0 I1]. pose proof I2 as I2'. apply StronglySorted_inv in I2 as [I2 I3]. destruct (lt x y) eqn:Exy.
      + split.
        * constructor; [|by constructor]. intros a b Ha%elem_of_list_singleton Hb%elem_of_list_singleton. subst. apply same_refl.
        * constructor; [done|]. constructor.
          { intros a b Ha%elem_of_list_singleton Hb. subst. rewrite <- Exy. apply lt_same_r. apply I0; [done|left]. }
          eapply Forall_impl; [exact I3|]. cbn. intros h Hh a b Ha%elem_of_list_singleton Hb. subst. eapply lt_tr; [exact Exy|]. apply Hh; [left|done].
      + assert (same lt x y = true) as Hs by (apply same_iff; done). assert (forall a, a ∈ y :: g -> same lt x a = true) as Hxa.
        { intros a Ha. eapply same_tr; [exact Hs|]. apply I0; [left|done]. }
        split.
        * constructor; [|done]. intros a b [->|Ha]%elem_of_cons [->|Hb]%elem_of_cons; [apply same_refl|by apply Hxa|rewrite same_sym; by apply Hxa|by apply I0].
        * constructor; [done|]. eapply Forall_impl; [exact I3|]. cbn. intros h Hh a b [->|Ha]%elem_of_cons Hb; [|by apply Hh].
          rewrite (lt_same_l x y) by done. apply Hh; [left|done].
  Qed.
  Lemma filter_concat_runs (x : A) (gs : list (list A)) g : g ∈ gs -> x ∈ g -> Forall (fun g => forall x y, x ∈ g -> y ∈ g -> same lt x y = true) gs ->
    StronglySorted (fun g h => forall x y, x ∈ g -> y ∈ h -> lt x y = true) gs -> filter (fun y => same lt x y = true) (concat gs) = g.
  Proof.
    assert (forall (x : A) gs, Forall (fun h : list A => forall y, y ∈ h -> same lt x y = false) gs -> filter (fun y => same lt x y = true) (concat gs) = []) as Hnone.
    { clear. intros x gs. induction 1 as [|h gs Hh _ IH]; cbn; [done|]. rewrite filter_app, IH, app_nil_r. induction h as [|y h IHh]; [done|].
      rewrite filter_cons_False by (rewrite Hh by left; done). apply IHh. intros z Hz. apply Hh. by right. }
    intros Hg Hx HS HL. induction gs as [|h gs IH]; [by apply elem_of_nil in Hg|]. apply Forall_cons in HS as [H0 HS]. apply StronglySorted_inv in HL as [HL HF].
    cbn. rewrite filter_app. apply elem_of_cons in Hg as [->|Hg].
    - rewrite Hnone.
      + rewrite app_nil_r. assert (forall k : list A, (forall y, y ∈ k -> same lt x y = true) -> filter (fun y => same lt x y = true) k = k) as Hall.
        { clear. induction k as [|y k IHk]; intros Hk; [done|]. rewrite filter_cons_True by (apply Hk; left). f_equal. apply IHk. intros z Hz. apply Hk. by right. }
        apply Hall. intros y Hy. by apply H0.
      + eapply Forall_impl; [exact HF|]. cbn. intros h' Hh y Hy. unfold same. rewrite (Hh x y Hx Hy). done.
    - rewrite IH by done. assert (filter (fun y => same lt x y = true) h = []) as ->; [|done].
      rewrite Forall_forall in HF. specialize (HF g Hg). clear -Hx HF W. induction h as [|y h IHh]; [done|].
      rewrite filter_cons_False.
      + apply IHh. intros a b Ha Hb. apply HF; [by right|done].
      + unfold same. rewrite (HF y x) by (try left; done). rewrite andb_false_r. done.
  Qed.
  Theorem runs_groups l : SqlSpec.groups_of lt l (runs lt (ssort lt l)).
  Proof.
    pose proof (runs_spec _ (ssort_sorted l)) as [HS HL]. pose proof (runs_concat (ssort lt l)) as Hc. pose proof (runs_ne (ssort lt l)) as Hn. split; [|split; [|done]].
    - intros g Hg. rewrite Forall_forall in Hn. specialize (Hn g Hg). destruct g as [|x g']; [done|]. exists x, g'. split; [done|].
      assert (x ∈ ssort lt l) as Hx. { rewrite <- Hc. apply elem_concat_iff. exists (x :: g'). split; [done|left]. }
      split; [by rewrite ssort_perm in Hx|]. rewrite <- (filter_concat_runs x _ (x :: g') Hg ltac:(left) HS HL) at 1. rewrite Hc. apply ssort_stable.
    - intros x Hx. rewrite <- (ssort_perm l), <- Hc in Hx. apply elem_concat_iff in Hx as (g & Hg & Hx). by exists g.
  Qed.
End sort.

(** sorting related lists *)
Section rel.
  Context {A B : Type} (lt : A -> A -> bool) (lt' : B -> B -> bool) (R : A -> B -> Prop).
  Context (Hlt : forall x x' y y', R x y -> R x' y' -> lt x x' = lt' y y').
  Lemma sinsert_rel x y l l' : R x y -> Forall2 R l l' -> Forall2 R (sinsert lt x l) (sinsert lt' y l').
  Proof. intros Hxy. induction 1 as [|a b l l' Hab Hl IH]; cbn; [by repeat constructor|]. rewrite (Hlt _ _ _ _ Hab Hxy). destruct (lt' b y); by repeat constructor. Qed.
  Lemma ssort_rel l l' : Forall2 R l l' -> Forall2 R (ssort lt l) (ssort lt' l').
  Proof. induction 1; cbn; [constructor|by apply sinsert_rel]. Qed.
  Lemma runs_rel l l' : Forall2 R l l' -> Forall2 (Forall2 R) (runs lt l) (runs lt' l').
  Proof.
    induction 1 as [|a b l l' Hab Hl IH]; cbn; [constructor|]. destruct IH as [|g h gs hs Hg IH]; [by repeat constructor|].
    destruct Hg as [|c d g h Hcd Hg]; [by repeat constructor|]. rewrite (Hlt _ _ _ _ Hab Hcd), (Hlt _ _ _ _ Hcd Hab). destruct (lt' b d || lt' d b); by repeat constructor.
  Qed.
End rel.
