(** * Early returns: one step keeps the invariant of the pass *)

From Coq Require Import Arith Lia.
From stdpp Require Import base numbers list list_numbers.
From Verif Require Import CppBase EarlyModel EarlySpec EarlyProofs EarlySound.

(** ** The level of the returns *)

Lemma depth_cons o l : depth (o :: l) = Nat.max (odepth o) (depth l).
Proof. done. Qed.
Lemma depth_app l1 l2 : depth (l1 ++ l2) = Nat.max (depth l1) (depth l2).
Proof. unfold depth. by rewrite map_app, list_max_app. Qed.

Lemma odepth_If rs c t e :
  odepth (If rs c t e) = match Nat.max (depth t) (depth e) with 0 => 0 | d => S d end.
Proof. done. Qed.

Lemma has_ret_depth l : has_ret l = true → 0 < depth l.
Proof.
  induction l as [|o l IH]; intros H; [done|]. cbn [has_ret existsb] in H. rewrite depth_cons.
  destruct o; cbn [is_ret orb odepth] in *; try (specialize (IH H)); lia.
Qed.

Lemma depth_noret l : depth l ≤ 1 → has_ret l = false → depth l = 0.
Proof.
  induction l as [|o l IH]; intros Hd Hr; [done|].
  cbn [has_ret existsb] in Hr. apply orb_false_iff in Hr as [H1 H2].
  rewrite depth_cons in Hd |- *. rewrite IH by (done || lia).
  destruct o as [| | |]; try done. rewrite odepth_If in *.
  destruct (Nat.max (depth t) (depth e)); lia.
Qed.

Lemma depth_elem o l : o ∈ l → odepth o ≤ depth l.
Proof.
  induction 1 as [o l|o l o2 Ho IH]; rewrite depth_cons; lia.
Qed.

(** ** link and wf *)

Lemma yops_uses l y : y ∈ yops l → y ∈ uses l.
Proof.
  induction l as [|o l IH]; [done|]. unfold yops in *. cbn [map concat].
  rewrite uses_cons, !elem_of_app. intros [H|H]; [|auto].
  left. destruct o; cbn [yvals ouses] in *; try done; by apply elem_of_nil in H.
Qed.

Lemma link_mono K o D D' :
  link o D → (∀ y, y ∈ ouses o → y < K) → (∀ y, y ∈ D' → y ∈ D ∨ K ≤ y) → link o D'.
Proof.
  destruct o as [rs f xs ns|rs c t e|xs|xs]; cbn [link]; try done.
  intros Hl Hu HD Hdep. destruct (Hl Hdep) as [H1 H2]. rewrite ouses_If in Hu. split.
  - intros Hr y Hy Hin. destruct (HD y Hin) as [Hin'|Hge]; [by apply (H1 Hr y)|].
    assert (y < K); [|lia]. apply Hu. right. apply elem_of_app. left. by apply yops_uses.
  - intros Hr y Hy Hin. destruct (HD y Hin) as [Hin'|Hge]; [by apply (H2 Hr y)|].
    assert (y < K); [|lia]. apply Hu. right. apply elem_of_app. right. by apply yops_uses.
Qed.

Lemma link_sub o D D' : link o D → (∀ y, y ∈ D' → y ∈ D) → link o D'.
Proof.
  destruct o as [rs f xs ns|rs c t e|xs|xs]; cbn [link]; try done.
  intros Hl HD Hdep. destruct (Hl Hdep) as [H1 H2]. split.
  - intros Hr y Hy Hin. by apply (H1 Hr y); [|apply HD].
  - intros Hr y Hy Hin. by apply (H2 Hr y); [|apply HD].
Qed.

Lemma link_app o D1 D2 : link o D1 → link o D2 → link o (D1 ++ D2).
Proof.
  destruct o as [rs f xs ns|rs c t e|xs|xs]; cbn [link]; try done.
  intros Hl1 Hl2 Hdep. destruct (Hl1 Hdep) as [H1 H2]. destruct (Hl2 Hdep) as [H3 H4]. split.
  - intros Hr y Hy. rewrite not_elem_of_app. eauto.
  - intros Hr y Hy. rewrite not_elem_of_app. eauto.
Qed.

Lemma link_nil o : link o [].
Proof.
  destruct o as [rs f xs ns|rs c t e|xs|xs]; cbn [link]; try done.
  intros _. split; intros _ y _ H; by apply elem_of_nil in H.
Qed.

Lemma link_depth0 o D : odepth o = 0 → link o D.
Proof. destruct o; cbn [link]; try done. intros -> ?. lia. Qed.

Lemma wf_app m p q :
  wf m p → wf m q → (q ≠ [] → has_yield p = false) → (∀ o, o ∈ p → link o (defs q)) → wf m (p ++ q).
Proof.
  induction p as [|o p IH]; intros Hp Hq Hy Hl; [done|].
  destruct (proj1 (wf_cons _ _ _) Hp) as (H1 & H2 & H3 & H4).
  cbn [app]. apply wf_cons. split; [done|]. split; [|split].
  - intros Ho. rewrite (H2 Ho). destruct q as [|o' q]; [done|].
    specialize (Hy ltac:(done)). cbn [has_yield existsb] in Hy. by rewrite Ho in Hy.
  - rewrite defs_app. apply link_app; [done|]. apply Hl. left.
  - apply IH; try done.
    + intros Hq'. specialize (Hy Hq'). cbn [has_yield existsb] in Hy. by apply orb_false_iff in Hy as [_ ?].
    + intros o' Ho'. apply Hl. by right.
Qed.

Lemma wf_app_l m p q : wf m (p ++ q) → wf m p.
Proof.
  induction p as [|o p IH]; intros H; [done|].
  cbn [app] in H. destruct (proj1 (wf_cons _ _ _) H) as (H1 & H2 & H3 & H4).
  apply wf_cons. split; [done|]. split; [|split; [|by apply IH]].
  - intros Ho. specialize (H2 Ho). by apply app_eq_nil in H2 as [? _].
  - eapply link_sub; [done|]. intros y Hy. rewrite defs_app, elem_of_app. by left.
Qed.

(** ** sub *)

Lemma owf_sub m g o : owf m (sub g o) ↔ owf m o.
Proof. destruct o; cbn [sub owf]; rewrite ?map_length; done. Qed.
Lemma link_subst g o D : link (sub g o) D ↔ link o D.
Proof. by destruct o. Qed.
Lemma yield_sub g o : is_yield (sub g o) = is_yield o.
Proof. by destruct o. Qed.
Lemma yields_sub g l : has_yield (map (sub g) l) = has_yield l.
Proof.
  induction l as [|o l IH]; [done|]. cbn [map has_yield existsb]. rewrite yield_sub. f_equal. exact IH.
Qed.
Lemma defs_sub g l : defs (map (sub g) l) = defs l.
Proof. unfold defs. rewrite map_map. f_equal. apply map_ext. intros o. apply odefs_sub. Qed.

Lemma wf_sub m g l : wf m l → wf m (map (sub g) l).
Proof.
  induction l as [|o l IH]; intros H; [done|].
  destruct (proj1 (wf_cons _ _ _) H) as (H1 & H2 & H3 & H4). cbn [map]. apply wf_cons.
  split; [by apply owf_sub|]. split; [|split].
  - rewrite yield_sub. intros Ho. by rewrite (H2 Ho).
  - rewrite defs_sub. by apply link_subst.
  - by apply IH.
Qed.

(** ** clones *)

Lemma is_ret_ren d u o : is_ret (ren d u o) = is_ret o.
Proof. by destruct o. Qed.
Lemma is_yield_ren d u o : is_yield (ren d u o) = is_yield o.
Proof. by destruct o. Qed.
Lemma has_ret_ren d u l : has_ret (map (ren d u) l) = has_ret l.
Proof. induction l as [|o l IH]; [done|]. cbn [map has_ret existsb]. rewrite is_ret_ren. f_equal. exact IH. Qed.
Lemma has_yield_ren d u l : has_yield (map (ren d u) l) = has_yield l.
Proof. induction l as [|o l IH]; [done|]. cbn [map has_yield existsb]. rewrite is_yield_ren. f_equal. exact IH. Qed.
Lemma yops_ren d u l : yops (map (ren d u) l) = map u (yops l).
Proof.
  unfold yops. induction l as [|o l IH]; [done|]. cbn [map concat]. rewrite map_app, <- IH. f_equal.
  by destruct o.
Qed.
Lemma odepth_ren d u o : odepth (ren d u o) = odepth o.
Proof.
  induction o as [rs f xs ns|rs c t e Ht He|xs|xs] using op_rect'; try done.
  cbn [ren odepth]. rewrite !map_map.
  assert (H : ∀ l, Forall (λ o, odepth (ren d u o) = odepth o) l →
     map (λ x, odepth (ren d u x)) l = map odepth l).
  { induction 1; cbn [map]; congruence. }
  by rewrite (H t Ht), (H e He).
Qed.
Lemma odefs_ren K u o : odefs (ren (Nat.add K) u o) = map (Nat.add K) (odefs o).
Proof.
  induction o as [rs f xs ns|rs c t e Ht He|xs|xs] using op_rect'; cbn [odefs ren]; try done.
  rewrite !map_app, !concat_map. f_equal. f_equal.
  - induction Ht as [|o2 l Ho _ IH]; cbn [map concat]; [done|]. by rewrite Ho, IH.
  - induction He as [|o2 l Ho _ IH]; cbn [map concat]; [done|]. by rewrite Ho, IH.
Qed.
Lemma defs_ren K u l : defs (map (ren (Nat.add K) u) l) = map (Nat.add K) (defs l).
Proof.
  unfold defs. rewrite map_map, concat_map, map_map. f_equal. apply map_ext. intros o. apply odefs_ren.
Qed.

Lemma good_branch_ren d u rs t : good_branch rs t → good_branch (map d rs) (map (ren d u) t).
Proof.
  intros [H1 H2]. split.
  - rewrite map_length. apply Forall_map. eapply Forall_impl; [done|].
    intros o Ho. destruct o; cbn [yarity ren] in *; try done. by rewrite map_length.
  - rewrite has_yield_ren, has_ret_ren. intros Hy Hr. by rewrite (H2 Hy Hr).
Qed.

Lemma link_ren K D o l :
  link o (defs l) → (∀ y, y ∈ ouses o → y < K) → (∀ y, y ∈ defs l → y ∈ D) →
  link (ren (Nat.add K) (inner K D) o) (map (Nat.add K) (defs l)).
Proof.
  intros Hl Hu HD.
  destruct o as [rs f xs ns|rs c t e|xs|xs]; try done.
  intros Hdep. rewrite odepth_ren in Hdep. cbn [ren]. specialize (Hl Hdep) as [H1 H2].
  rewrite ouses_If in Hu.
  assert (H : ∀ b, (∀ y, y ∈ uses b → y < K) → (has_ret b = false → ∀ y, y ∈ yops b → y ∉ defs l) →
     has_ret (map (ren (Nat.add K) (inner K D)) b) = false →
     ∀ y, y ∈ yops (map (ren (Nat.add K) (inner K D)) b) → y ∉ map (Nat.add K) (defs l)).
  { intros b Hub Hb. rewrite has_ret_ren, yops_ren. intros Hr y Hy Hin.
    apply elem_of_list_fmap in Hy as (z & -> & Hz). apply elem_of_list_fmap in Hin as (z' & E & Hz').
    assert (z < K) by (apply Hub; by apply yops_uses).
    unfold inner in E. destruct (decide (z ∈ D)); [|lia].
    assert (z = z') as -> by lia. by apply (Hb Hr z'). }
  split; apply H; try done; intros y Hy; apply Hu; right; apply elem_of_app; auto.
Qed.

Lemma wf_rens K D m l :
  (∀ y, y ∈ uses l → y < K) → (∀ y, y ∈ defs l → y ∈ D) → wf m l →
  wf m (map (ren (Nat.add K) (inner K D)) l).
Proof.
  assert (Hblk : ∀ l, Forall (λ o, (∀ y, y ∈ ouses o → y < K) → (∀ y, y ∈ odefs o → y ∈ D) → owf m o →
              owf m (ren (Nat.add K) (inner K D) o)) l →
     (∀ y, y ∈ uses l → y < K) → (∀ y, y ∈ defs l → y ∈ D) → wf m l →
     wf m (map (ren (Nat.add K) (inner K D)) l)).
  { induction 1 as [|o l0 Ho _ IH]; intros Hu HD H; [done|].
    destruct (proj1 (wf_cons _ _ _) H) as (H1 & H2 & H3 & H4). cbn [map]. apply wf_cons.
    rewrite uses_cons in Hu. rewrite defs_cons in HD.
    split; [|split; [|split]].
    - apply Ho; [| |done].
      + intros y Hy. apply Hu, elem_of_app. by left.
      + intros y Hy. apply HD, elem_of_app. by left.
    - rewrite is_yield_ren. intros E. by rewrite (H2 E).
    - rewrite defs_ren. apply link_ren; [done| |].
      + intros y Hy. apply Hu, elem_of_app. by left.
      + intros y Hy. apply HD, elem_of_app. by right.
    - apply IH; [| |done].
      + intros y Hy. apply Hu, elem_of_app. by right.
      + intros y Hy. apply HD, elem_of_app. by right. }
  apply Hblk. apply ops_ind.
  - done.
  - intros rs c t e Ht He Hu HD Ho.
    destruct (proj1 (owf_If _ _ _ _ _) Ho) as (Hwt & Hwe & Hgt & Hge).
    rewrite ouses_If in Hu. rewrite odefs_If in HD.
    cbn [ren]. apply owf_If.
    split; [|split; [|split; by apply good_branch_ren]].
    + apply Hblk; try done.
      * intros y Hy. apply Hu. right. apply elem_of_app. by left.
      * intros y Hy. apply HD. rewrite !elem_of_app. auto.
    + apply Hblk; try done.
      * intros y Hy. apply Hu. right. apply elem_of_app. by right.
      * intros y Hy. apply HD. rewrite !elem_of_app. auto.
  - done.
  - intros xs _ _ H. cbn [ren owf] in *. by rewrite map_length.
Qed.

Lemma clone_wf K m o : (∀ y, y ∈ ouses o → y < K) → owf m o → owf m (clone K o).
Proof.
  destruct o as [rs f xs ns|rs c t e|xs|xs]; try done. intros Hu Ho.
  destruct (proj1 (owf_If _ _ _ _ _) Ho) as (Hwt & Hwe & Hgt & Hge).
  rewrite ouses_If in Hu. cbn [clone]. apply owf_If.
  split; [|split; [|split; by apply good_branch_ren]].
  - apply wf_rens; try done.
    + intros y Hy. apply Hu. right. apply elem_of_app. by left.
    + intros y Hy. apply elem_of_app. by left.
  - apply wf_rens; try done.
    + intros y Hy. apply Hu. right. apply elem_of_app. by right.
    + intros y Hy. apply elem_of_app. by right.
Qed.

Lemma clone_link K o D :
  (∀ y, y ∈ ouses o → y < K) → (∀ y, y ∈ D → y ∉ odefs o) → link (clone K o) (map (Nat.add K) D).
Proof.
  destruct o as [rs f xs ns|rs c t e|xs|xs]; try done. rewrite ouses_If, odefs_If. intros Hu HD _.
  set (I := defs t ++ defs e) in *.
  assert (H : ∀ b, (∀ y, y ∈ uses b → y < K) →
     ∀ y, y ∈ yops (map (ren (Nat.add K) (inner K I)) b) → y ∉ map (Nat.add K) D).
  { intros b Hub y Hy Hin. rewrite yops_ren in Hy.
    apply elem_of_list_fmap in Hy as (z & -> & Hz). apply elem_of_list_fmap in Hin as (z' & E & Hz').
    assert (z < K) by (apply Hub; by apply yops_uses).
    unfold inner in E. destruct (decide (z ∈ I)) as [Hi|]; [|lia].
    assert (z = z') as -> by lia. apply (HD z' Hz'). apply elem_of_app. by right. }
  split; intros _; apply H; intros y Hy; apply Hu; right; apply elem_of_app; auto.
Qed.

Lemma defs_clones K p : defs (map (clone K) p) = map (Nat.add K) (defs p).
Proof. unfold defs. rewrite map_map, concat_map, map_map. f_equal. apply map_ext. intros o. apply odefs_clone. Qed.

Lemma clones_wf K m g p :
  (∀ y, y ∈ uses p → y < K) → NoDup (defs p) → wf m p →
  wf m (map (sub g) (map (clone K) p))
  ∧ ∀ o D, o ∈ map (sub g) (map (clone K) p) → (∀ y, y ∈ D → y ∉ defs p) → link o (map (Nat.add K) D).
Proof.
  intros Hu Hnd Hwf. split.
  - apply wf_sub. induction p as [|o p IH]; [done|].
    destruct (proj1 (wf_cons _ _ _) Hwf) as (H1 & H2 & H3 & H4). cbn [map]. apply wf_cons.
    rewrite uses_cons in Hu. rewrite defs_cons in Hnd. apply NoDup_app in Hnd as (_ & Hdj & Hnd).
    split; [|split; [|split]].
    + apply clone_wf; [|done]. intros y Hy. apply Hu, elem_of_app. by left.
    + rewrite clone_yield. intros E. by rewrite (H2 E).
    + rewrite defs_clones. apply clone_link.
      * intros y Hy. apply Hu, elem_of_app. by left.
      * intros y Hy Hin. by apply (Hdj y).
    + apply IH; [|done|done]. intros y Hy. apply Hu, elem_of_app. by right.
  - intros o D Ho HD. rewrite map_map in Ho. apply elem_of_list_fmap in Ho as (o' & -> & Ho').
    apply link_subst, clone_link.
    + intros y Hy. apply Hu. unfold uses. apply elem_of_list_In, in_concat. exists (ouses o').
      split; [by apply in_map, elem_of_list_In|by apply elem_of_list_In].
    + intros y Hy Hin. apply (HD y Hy). unfold defs. apply elem_of_list_In, in_concat. exists (odefs o').
      split; [by apply in_map, elem_of_list_In|by apply elem_of_list_In].
Qed.

(** ** The operations after the enclosing ifs *)

Lemma up_wf K m (ks : ctx) : ∀ g xs gl U,
  kwf m ks → NoDup (kdefs ks) →
  (∀ y, y ∈ kuses ks → y < K) →
  gather_up K ks = Ok gl →
  elim (map fst ks) g (Yield xs :: gl) = Ok U →
  wf m U ∧ ∃ D, defs U = map (Nat.add K) D ∧ NoDup D ∧ (∀ y, y ∈ D → y ∈ kdefs ks).
Proof.
  induction ks as [|[rs post] ks IH]; intros g xs gl U Hwf Hnd Hku Hga Hel; [done|].
  cbn [kwf] in Hwf. destruct Hwf as (Hwp & Hyp & Hwk).
  rewrite kdefs_cons in Hnd. rewrite kuses_cons in Hku.
  cbn [gather_up] in Hga. cbn [map fst elim] in Hel.
  apply NoDup_app in Hnd as (_ & _ & Hnd). apply NoDup_app in Hnd as (Hnp & Hd2 & Hnk).
  set (g1 := assoc rs (map g xs) g) in *. clearbody g1.
  rewrite (upto_wf m) in Hga by done.
  destruct (has_yield post) eqn:Hy.
  - destruct (yield_shape _ _ Hwp Hy) as (p & ys & -> & Hp).
    destruct (gather_up K ks) as [gl'| |] eqn:Hga'; try done. cbn [obind] in Hga.
    injection Hga as <-. rewrite map_app in Hel. cbn [map clone] in Hel.
    rewrite <- app_assoc in Hel. cbn [app] in Hel.
    rewrite elim_app in Hel by (by rewrite clones_yield).
    destruct (elim (map fst ks) g1 (Yield ys :: gl')) as [L'| |] eqn:Hel'; try done.
    cbn [obind] in Hel. injection Hel as <-.
    assert (Hdp : defs (p ++ [Yield ys]) = defs p) by (by rewrite defs_app, app_nil_r).
    rewrite Hdp in Hnp, Hd2.
    destruct (clones_wf K m g1 p) as [Hw1 Hl1]; [| done | by apply wf_app_l in Hwp |].
    { intros y Hin. apply Hku. rewrite uses_app, !elem_of_app. auto. }
    destruct (IH g1 ys gl' L' Hwk Hnk) as (Hw2 & D & Hd & HnD & HD); try done.
    { intros y Hin. apply Hku. rewrite elem_of_app. by right. }
    split.
    + apply wf_app; [done|done| |].
      * intros _. by rewrite yields_sub, clones_yield.
      * intros o Ho. rewrite Hd. apply Hl1; [done|]. intros y Hy' Hin. by apply (Hd2 y Hin), HD.
    + exists (defs p ++ D). rewrite defs_app, defs_sub, defs_clones, Hd, map_app. split; [done|]. split.
      * apply NoDup_app. split; [done|]. split; [|done]. intros y Hin HinD. by apply (Hd2 y Hin), HD.
      * intros y. rewrite kdefs_cons, Hdp, !elem_of_app. intros [?|?]; auto.
  - cbn [obind] in Hga. injection Hga as <-. rewrite app_nil_r in Hel.
    rewrite <- (app_nil_r (map (clone K) post)), elim_app in Hel by (by rewrite clones_yield).
    cbn [elim obind] in Hel. injection Hel as <-. rewrite app_nil_r.
    destruct (clones_wf K m g1 post) as [Hw1 Hl1]; [| done | done |].
    { intros y Hin. apply Hku. rewrite !elem_of_app. auto. }
    split; [done|]. exists (defs post). rewrite defs_sub, defs_clones. split; [done|]. split; [done|].
    intros y Hin. rewrite kdefs_cons, !elem_of_app. auto.
Qed.

(** ** One branch of the new if *)

Lemma defs_trim p xs : defs (p ++ [Yield xs]) = defs p.
Proof. by rewrite defs_app, app_nil_r. Qed.

Lemma case_wf K m rs b post (ks : ctx) b' :
  wf m b → wf m post → kwf m ks → depth b ≤ 1 →
  NoDup (defs b ++ rs ++ defs post ++ kdefs ks) →
  (∀ y, y ∈ uses b ++ uses post ++ kuses ks → y < K) →
  (∀ y, y ∈ defs b ++ rs ++ defs post ++ kdefs ks → y < K) →
  new_case K rs b post ks = Ok b' →
  (∃ l xs, b' = l ++ [Yield xs] ∧ has_yield l = false ∧ length xs = m
     ∧ (has_ret b = true → depth b' = 0))
  ∧ wf m b' ∧ NoDup (defs b')
  ∧ ∀ y, y ∈ defs b' → y ∈ defs b ∨ (has_ret b = false ∧ (y ∈ defs post ∨ (K ≤ y ∧ y < 2 * K))).
Proof.
  intros Hwb Hwp Hwk Hdep Hnd Hu Hd Hnc. unfold new_case in Hnc.
  destruct (has_ret b) eqn:Hrb.
  - cbn [obind] in Hnc.
    destruct (trim_last b Hrb) as (p & xs & Et & Hrp & q & Eb).
    rewrite Et, last_snoc, removelast_last in Hnc. injection Hnc as <-.
    rewrite Eb in Hwb. pose proof (wf_app_yield _ _ _ Hwb ltac:(done)) as Hyp.
    assert (Hwp' := wf_app_l _ _ _ Hwb).
    assert (Hm : length xs = m).
    { apply wf_app_r in Hwb. by destruct (proj1 (wf_cons _ _ _) Hwb) as (? & _). }
    rewrite Eb, defs_app in Hnd. rewrite Eb, depth_app in Hdep.
    assert (Hp0 : depth p = 0) by (apply depth_noret; [lia|done]).
    split; [|split; [|split]].
    + exists p, xs. split; [done|]. split; [done|]. split; [done|]. intros _. rewrite depth_app, Hp0. done.
    + apply wf_app; [done|by cbn|done|]. intros o Ho. apply link_nil.
    + rewrite defs_trim. rewrite <- app_assoc in Hnd. by apply NoDup_app in Hnd as (? & _).
    + intros y. rewrite defs_trim, Eb, defs_app, elem_of_app. auto.
  - destruct (gather K post ks) as [gl| |] eqn:Hga; try done. cbn [obind] in Hnc.
    destruct (elim (rs :: map fst ks) (λ x, x) (ensure_yield b ++ gl)) as [L| |] eqn:Hel; try done.
    cbn [obind] in Hnc.
    assert (HL : wf m L ∧ NoDup (defs L)
                 ∧ ∀ y, y ∈ defs L → y ∈ defs b ∨ y ∈ defs post ∨ (K ≤ y ∧ y < 2 * K)).
    { destruct (ensure_yield_shape m b Hwb) as (p & xs & Ee & Hyp0 & Hb).
      rewrite Ee, <- app_assoc in Hel. cbn [app] in Hel.
      rewrite elim_app in Hel by done. rewrite subs_id in Hel. cbn [elim] in Hel.
      rewrite map_id in Hel.
      destruct (elim (map fst ks) (assoc rs xs (λ x, x)) gl) as [L1| |] eqn:Hel1; try done.
      cbn [obind] in Hel. injection Hel as <-.
      assert (Hdp : defs b = defs p) by (destruct Hb as [->|[-> _]]; [apply defs_trim|done]).
      assert (Hwfp : wf m p) by (destruct Hb as [->|[-> _]]; [by apply wf_app_l in Hwb|done]).
      assert (Hp0 : depth p = 0).
      { pose proof (depth_noret b Hdep Hrb) as H0. destruct Hb as [->|[-> _]]; [|done].
        rewrite depth_app in H0. lia. }
      rewrite Hdp in *. clear Hb Ee.
      apply NoDup_app in Hnd as (Hnb & Hd1 & Hnd). apply NoDup_app in Hnd as (Hnrs & Hd2 & Hnd).
      apply NoDup_app in Hnd as (Hnp & Hd3 & Hnk).
      set (g1 := assoc rs xs (λ x, x)) in *. clearbody g1.
      unfold gather in Hga. rewrite (upto_wf m) in Hga by done.
      assert (H1 : wf m L1 ∧ NoDup (defs L1) ∧ ∀ y, y ∈ defs L1 → y ∈ defs post ∨ (K ≤ y ∧ y < 2 * K)).
      { destruct (has_yield post) eqn:Hy.
        - destruct (yield_shape _ _ Hwp Hy) as (q & ys & -> & Hq).
          destruct (gather_up K ks) as [gl'| |] eqn:Hga'; try done. cbn [obind] in Hga.
          injection Hga as <-. rewrite <- app_assoc in Hel1. cbn [app] in Hel1.
          rewrite elim_app in Hel1 by done.
          destruct (elim (map fst ks) g1 (Yield ys :: gl')) as [L2| |] eqn:Hel2; try done.
          cbn [obind] in Hel1. injection Hel1 as <-.
          destruct (up_wf K m ks g1 ys gl' L2) as (Hw2 & D & HdD & HnD & HD); try done.
          { intros y Hin. apply Hu. rewrite !elem_of_app. auto. }
          assert (HDK : ∀ y, y ∈ D → y < K).
          { intros y Hin. apply Hd. rewrite !elem_of_app. auto. }
          rewrite defs_trim in Hnp, Hd.
          split; [|split].
          + apply wf_app; [apply wf_sub; exact (wf_app_l _ _ _ Hwp)|done| |].
            * intros _. by rewrite yields_sub.
            * intros o Ho. apply elem_of_list_fmap in Ho as (o' & -> & Ho'). apply link_subst.
              apply (link_mono K o' []); [apply link_nil| |].
              -- intros y Hin. apply Hu. rewrite !elem_of_app, uses_app, elem_of_app.
                 right. left. left. unfold uses. apply elem_of_list_In, in_concat. exists (ouses o').
                 split; [by apply in_map, elem_of_list_In|by apply elem_of_list_In].
              -- intros y Hin. right. rewrite HdD in Hin.
                 apply elem_of_list_fmap in Hin as (z & -> & _). lia.
          + rewrite defs_app, defs_sub, HdD. apply NoDup_app. split; [done|]. split.
            * intros y Hin Hin'. apply elem_of_list_fmap in Hin' as (z & -> & _).
              assert (K + z < K); [|lia]. apply Hd. rewrite !elem_of_app. auto.
            * apply NoDup_fmap_2; [|done]. intros a b0 Hab. lia.
          + intros y. rewrite defs_trim, defs_app, defs_sub, HdD, elem_of_app. intros [?|Hin]; [by left|].
            right. apply elem_of_list_fmap in Hin as (z & -> & Hz). apply HDK in Hz. lia.
        - cbn [obind] in Hga. injection Hga as <-. rewrite app_nil_r in Hel1.
          rewrite <- (app_nil_r post), elim_app in Hel1 by done.
          cbn [elim obind] in Hel1. injection Hel1 as <-. rewrite app_nil_r, defs_sub.
          split; [by apply wf_sub|]. split; [done|]. intros y Hin. by left. }
      destruct H1 as (Hw1 & Hn1 & Hs1). split; [|split].
      - apply wf_app; [done|done|done|]. intros o Ho. apply link_depth0.
        apply depth_elem in Ho. lia.
      - rewrite defs_app. apply NoDup_app. split; [done|]. split; [|done].
        intros y Hin Hin'. destruct (Hs1 y Hin') as [Hin2|Hge].
        + apply (Hd1 y Hin). rewrite !elem_of_app. auto.
        + assert (y < K); [|lia]. apply Hd. rewrite elem_of_app. by left.
      - intros y. rewrite defs_app, elem_of_app. intros [?|Hin]; [by left|]. right. by apply Hs1. }
    destruct HL as (HwL & HnL & HsL).
    destruct (last L) as [o|] eqn:El; [|done]. destruct o; try done.
    apply last_Some in El as (L0 & ->). rewrite removelast_last in Hnc. injection Hnc as <-.
    apply elim_noyield in Hel. rewrite has_yield_app in Hel. apply orb_false_iff in Hel as [Hel _].
    rewrite defs_trim. rewrite defs_app, app_nil_r in HnL. rewrite defs_app, app_nil_r in HsL.
    split; [|split; [|split]].
    + exists L0, xs. split; [done|]. split; [done|]. split; [|done].
      apply wf_app_r in HwL. by destruct (proj1 (wf_cons _ _ _) HwL) as (? & _).
    + apply wf_app; [by apply wf_app_l in HwL|by cbn|done|]. intros o Ho. apply link_nil.
    + done.
    + intros y Hin. destruct (HsL y Hin) as [?|[?|?]]; auto.
Qed.

(** ** The new if *)

Lemma kyield_Ret (ks : ctx) o xs l : is_yield o = false → kyield ks l → kyield ks (o :: Ret xs :: l).
Proof.
  intros Ho. destruct ks as [|[rs post] ks]; cbn [kyield].
  - intros H. cbn [has_yield existsb is_yield]. by rewrite Ho.
  - intros H. constructor; [by destruct o|]. by constructor.
Qed.
Lemma kyield_cons (ks : ctx) o l : is_yield o = false → kyield ks l → kyield ks (o :: l).
Proof.
  intros Ho. destruct ks as [|[rs post] ks]; cbn [kyield].
  - intros H. cbn [has_yield existsb is_yield]. by rewrite Ho.
  - intros H. constructor; [by destruct o|done].
Qed.
Lemma kyield_nil (ks : ctx) : kyield ks [].
Proof. destruct ks as [|[rs post] ks]; cbn [kyield]; done. Qed.

Lemma close_wf K m rs c t e post (ks : ctx) l' :
  wf m (If rs c t e :: post) → kyield ks (If rs c t e :: post) → kwf m ks →
  depth (If rs c t e :: post) ≤ 2 →
  NoDup (defs (If rs c t e :: post) ++ kdefs ks) →
  (∀ y, y ∈ uses (If rs c t e :: post) ++ kuses ks → y < K) →
  (∀ y, y ∈ defs (If rs c t e :: post) ++ kdefs ks → y < K) →
  has_ret t || has_ret e = true →
  close K rs c t e post ks = Ok l' →
  wf m l' ∧ NoDup (defs l') ∧ (∀ y, y ∈ defs l' → y ∈ defs (If rs c t e :: post) ∨ K ≤ y)
  ∧ has_ret l' = true ∧ kyield ks l'.
Proof.
  intros Hwf Hky Hkw Hdep Hnd Hu Hd Hret Hcl.
  apply kyield_tail in Hky.
  destruct (proj1 (wf_cons _ _ _) Hwf) as (How & _ & _ & Hwp).
  destruct (proj1 (owf_If _ _ _ _ _) How) as (Hwt & Hwe & Hgt & Hge).
  rewrite depth_cons, odepth_If in Hdep.
  assert (Hdt : depth t ≤ 1 ∧ depth e ≤ 1) by (destruct (Nat.max (depth t) (depth e)) eqn:E; lia).
  destruct Hdt as [Hdt Hde].
  rewrite defs_cons, odefs_If in Hnd, Hd. rewrite uses_cons, ouses_If in Hu.
  unfold close in Hcl.
  destruct (new_case K rs t post ks) as [t'| |] eqn:Ht; try done. cbn [obind] in Hcl.
  destruct (new_case K rs e post ks) as [e'| |] eqn:He; try done. cbn [obind] in Hcl.
  destruct (case_wf K m rs t post ks t' Hwt Hwp Hkw Hdt (proj1 (nodup5 _ _ _ _ _ Hnd)))
    as ((lt & xt & Et & Hyt & Hmt & Hzt) & Hwt' & Hnt & Hst); try done.
  { intros y Hy. apply Hu. revert Hy. rewrite !elem_of_app, elem_of_cons, !elem_of_app. tauto. }
  { intros y Hy. apply Hd. revert Hy. rewrite !elem_of_app. tauto. }
  destruct (case_wf K m rs e post ks e' Hwe Hwp Hkw Hde (proj2 (nodup5 _ _ _ _ _ Hnd)))
    as ((le & xe & Ee & Hye & Hme & Hze) & Hwe' & Hne & Hse); try done.
  { intros y Hy. apply Hu. revert Hy. rewrite !elem_of_app, elem_of_cons, !elem_of_app. tauto. }
  { intros y Hy. apply Hd. revert Hy. rewrite !elem_of_app. tauto. }
  assert (Hw : width t' = m) by (unfold width; by rewrite Et, last_snoc).
  rewrite Hw in Hcl. set (N := 2 * K) in *.
  assert (HN : N = 2 * K) by done. clearbody N.
  injection Hcl as <-.
  assert (Hgood : ∀ b' l xs, b' = l ++ [Yield xs] → has_yield l = false → length xs = m →
            good_branch (seq N m) b').
  { intros b' l xs -> Hy Hm. split.
    - rewrite seq_length. apply Forall_app. split.
      + clear -Hy. induction l as [|o l IH]; [done|].
        cbn [has_yield existsb] in Hy. apply orb_false_iff in Hy as [H1 H2].
        constructor; [by destruct o|by apply IH].
      + constructor; [done|constructor].
    - rewrite has_yield_app. cbn. by rewrite orb_true_r. }
  split; [|split; [|split; [|split]]].
  - apply wf_cons. split; [|split; [done|split]].
    + apply owf_If. split; [done|]. split; [done|]. split; eauto.
    + destruct (has_ret t && has_ret e) eqn:Hboth; [|apply link_nil].
      apply andb_true_iff in Hboth as [Hr1 Hr2].
      apply link_depth0. rewrite odepth_If. by rewrite (Hzt Hr1), (Hze Hr2).
    + apply wf_cons. split; [cbn [owf]; apply seq_length|]. split; [done|]. split; [done|].
      by destruct (has_ret t && has_ret e).
  - rewrite !defs_cons, odefs_If. cbn [odefs app].
    assert (Hlow : ∀ y, y ∈ (defs t' ++ defs e') ++ defs (if has_ret t && has_ret e then post else []) → y < N).
    { intros y. rewrite !elem_of_app. intros [[Hy|Hy]|Hy].
      - destruct (Hst y Hy) as [Hin|[_ [Hin|Hin]]]; [| |lia].
        + assert (y < K); [|lia]. apply Hd. rewrite !elem_of_app. auto.
        + assert (y < K); [|lia]. apply Hd. rewrite !elem_of_app. auto.
      - destruct (Hse y Hy) as [Hin|[_ [Hin|Hin]]]; [| |lia].
        + assert (y < K); [|lia]. apply Hd. rewrite !elem_of_app. auto.
        + assert (y < K); [|lia]. apply Hd. rewrite !elem_of_app. auto.
      - destruct (has_ret t && has_ret e); [|by apply elem_of_nil in Hy].
        assert (y < K); [|lia]. apply Hd. rewrite !elem_of_app. auto. }
    rewrite <- app_assoc. apply NoDup_app. split; [apply NoDup_seq|]. split.
    { intros y Hy Hy'. apply elem_of_seq in Hy. apply Hlow in Hy'. lia. }
    rewrite !NoDup_app in Hnd. destruct Hnd as (((_ & Hd1 & _ & Hd2 & _) & Hd3 & Hnp) & _ & _).
    assert (HdK : ∀ y, y ∈ defs t ∨ y ∈ defs e ∨ y ∈ defs post → y < K).
    { intros y Hy. apply Hd. rewrite !elem_of_app. tauto. }
    apply NoDup_app. split; [|split].
    + apply NoDup_app. split; [done|]. split; [|done]. intros y Hy Hy'.
      destruct (Hst y Hy) as [Hin|[Hr1 Hin]], (Hse y Hy') as [Hin'|[Hr2 Hin']].
      * by apply (Hd2 y).
      * destruct Hin' as [Hin'|Hin'].
        -- apply (Hd3 y); [rewrite !elem_of_app; auto|done].
        -- assert (y < K) by (apply HdK; auto). lia.
      * destruct Hin as [Hin|Hin].
        -- apply (Hd3 y); [rewrite !elem_of_app; auto|done].
        -- assert (y < K) by (apply HdK; auto). lia.
      * by rewrite Hr1, Hr2 in Hret.
    + intros y Hy Hy'. destruct (has_ret t && has_ret e) eqn:Hboth; [|by apply elem_of_nil in Hy'].
      apply andb_true_iff in Hboth as [Hr1 Hr2].
      apply elem_of_app in Hy as [Hy|Hy].
      * destruct (Hst y Hy) as [Hin|[Hr _]]; [|by rewrite Hr1 in Hr].
        apply (Hd3 y); [rewrite !elem_of_app; auto|done].
      * destruct (Hse y Hy) as [Hin|[Hr _]]; [|by rewrite Hr2 in Hr].
        apply (Hd3 y); [rewrite !elem_of_app; auto|done].
    + destruct (has_ret t && has_ret e); [done|constructor].
  - intros y. rewrite !defs_cons, !odefs_If. cbn [odefs app]. rewrite !elem_of_app.
    intros [[Hy|[Hy|Hy]]|Hy].
    + apply elem_of_seq in Hy. lia.
    + destruct (Hst y Hy) as [Hin|[_ [Hin|Hin]]]; [auto|auto|lia].
    + destruct (Hse y Hy) as [Hin|[_ [Hin|Hin]]]; [auto|auto|lia].
    + destruct (has_ret t && has_ret e); [auto|by apply elem_of_nil in Hy].
  - done.
  - apply kyield_Ret; [done|]. destruct (has_ret t && has_ret e); [done|apply kyield_nil].
Qed.

(** ** One round *)

Lemma rect_depth K d : ∀ (ks : ctx) l r, rect K d ks l = Some r → 0 < depth l.
Proof.
  induction d as [|d IHd]; intros ks l; induction l as [|o post IHl]; intros r Hre;
    try (by rewrite rect_nil in Hre); rewrite rect_cons in Hre; rewrite depth_cons.
  - assert (Hskip : match rect K 0 ks post with
                    | Some r => Some (let* l' := r in Ok (o :: l'))
                    | None => None
                    end = Some r → 0 < depth post).
    { destruct (rect K 0 ks post) as [r'|] eqn:E; [|done]. intros _. by eapply IHl. }
    destruct o as [rs f xs ns|rs c t e|xs|xs]; try (apply Hskip in Hre; lia).
    destruct (has_ret t || has_ret e) eqn:Hr; [|apply Hskip in Hre; lia].
    rewrite odepth_If. apply orb_true_iff in Hr as [H|H]; apply has_ret_depth in H;
      destruct (Nat.max (depth t) (depth e)) eqn:E; lia.
  - assert (Hskip : match rect K (S d) ks post with
                    | Some r => Some (let* l' := r in Ok (o :: l'))
                    | None => None
                    end = Some r → 0 < depth post).
    { destruct (rect K (S d) ks post) as [r'|] eqn:E; [|done]. intros _. by eapply IHl. }
    destruct o as [rs f xs ns|rs c t e|xs|xs]; try (apply Hskip in Hre; lia).
    destruct (rect K d ((rs, post) :: ks) t) as [rt|] eqn:Et.
    { apply IHd in Et. rewrite odepth_If. destruct (Nat.max (depth t) (depth e)) eqn:E; lia. }
    destruct (rect K d ((rs, post) :: ks) e) as [re|] eqn:Ee; [|apply Hskip in Hre; lia].
    apply IHd in Ee. rewrite odepth_If. destruct (Nat.max (depth t) (depth e)) eqn:E; lia.
Qed.

Lemma rect_wf K m : ∀ d (ks : ctx) l l',
  rect K d ks l = Some (Ok l') →
  wf m l → kyield ks l → kwf m ks → depth l ≤ 2 + d →
  NoDup (defs l ++ kdefs ks) →
  (∀ y, y ∈ uses l ++ kuses ks → y < K) →
  (∀ y, y ∈ defs l ++ kdefs ks → y < K) →
  wf m l' ∧ NoDup (defs l') ∧ (∀ y, y ∈ defs l' → y ∈ defs l ∨ K ≤ y) ∧ kyield ks l'
  ∧ (has_ret l' = true ∨ (has_ret l' = has_ret l ∧ has_yield l' = has_yield l ∧ yops l' = yops l)).
Proof.
  assert (Hsk : ∀ d (ks : ctx) op post,
    (∀ l', rect K d ks post = Some (Ok l') →
       wf m post → kyield ks post → kwf m ks → depth post ≤ 2 + d →
       NoDup (defs post ++ kdefs ks) →
       (∀ y, y ∈ uses post ++ kuses ks → y < K) →
       (∀ y, y ∈ defs post ++ kdefs ks → y < K) →
       wf m l' ∧ NoDup (defs l') ∧ (∀ y, y ∈ defs l' → y ∈ defs post ∨ K ≤ y) ∧ kyield ks l'
       ∧ (has_ret l' = true ∨ (has_ret l' = has_ret post ∧ has_yield l' = has_yield post ∧ yops l' = yops post))) →
    ∀ l', match rect K d ks post with
          | Some r => Some (let* l' := r in Ok (op :: l'))
          | None => None
          end = Some (Ok l') →
       wf m (op :: post) → kyield ks (op :: post) → kwf m ks → depth (op :: post) ≤ 2 + d →
       NoDup (defs (op :: post) ++ kdefs ks) →
       (∀ y, y ∈ uses (op :: post) ++ kuses ks → y < K) →
       (∀ y, y ∈ defs (op :: post) ++ kdefs ks → y < K) →
       wf m l' ∧ NoDup (defs l') ∧ (∀ y, y ∈ defs l' → y ∈ defs (op :: post) ∨ K ≤ y) ∧ kyield ks l'
       ∧ (has_ret l' = true ∨ (has_ret l' = has_ret (op :: post) ∧ has_yield l' = has_yield (op :: post)
                                ∧ yops l' = yops (op :: post)))).
  { intros d ks op post IH l' E Hwf Hky Hkw Hdep Hnd Hu Hd.
    destruct (rect K d ks post) as [[l1| |]|] eqn:Ep; try done. cbn [obind] in E. injection E as <-.
    destruct (proj1 (wf_cons _ _ _) Hwf) as (How & Hlast & Hlink & Hwp).
    rewrite defs_cons in Hnd, Hd. rewrite uses_cons in Hu. rewrite depth_cons in Hdep.
    destruct (IH l1 eq_refl Hwp) as (Hw & Hn & Hs & Hk & Hy); try done.
    - by apply kyield_tail in Hky.
    - lia.
    - exact (nodup3 _ _ _ Hnd).
    - intros y Hin. apply Hu. revert Hin. rewrite !elem_of_app. tauto.
    - intros y Hin. apply Hd. revert Hin. rewrite !elem_of_app. tauto.
    - split; [|split; [|split; [|split]]].
      + apply wf_cons. split; [done|]. split; [|split; [|done]].
        * intros Ho. specialize (Hlast Ho). subst post. by rewrite rect_nil in Ep.
        * eapply (link_mono K); [done| |done]. intros y Hin. apply Hu. rewrite !elem_of_app. auto.
      + rewrite defs_cons. rewrite <- app_assoc in Hnd. apply NoDup_app in Hnd as (Ho & Hdj & _).
        apply NoDup_app. split; [done|]. split; [|done].
        intros y Hin Hin'. destruct (Hs y Hin') as [Hp|Hge].
        * apply (Hdj y Hin). rewrite elem_of_app. by left.
        * assert (y < K); [|lia]. apply Hd. rewrite !elem_of_app. auto.
      + intros y. rewrite !defs_cons, !elem_of_app. intros [?|Hin]; [auto|].
        destruct (Hs y Hin); auto.
      + destruct ks as [|[rs' post'] ks]; cbn [kyield] in *.
        * cbn [has_yield existsb] in *. apply orb_false_iff in Hky as [-> _]. done.
        * apply Forall_cons in Hky as [? _]. by constructor.
      + destruct Hy as [Hr|(Hr & Hyy & Hyo)].
        * left. cbn [has_ret existsb]. unfold has_ret in Hr. rewrite Hr. apply orb_true_r.
        * right. unfold has_ret, has_yield, yops in *. cbn [existsb map concat]. by rewrite Hr, Hyy, Hyo. }
  induction d as [|d IHd]; intros ks l; induction l as [|op post IHl];
    intros l' Hre Hwf Hky Hkw Hdep Hnd Hu Hd; try (by rewrite rect_nil in Hre);
    rewrite rect_cons in Hre.
  - destruct op as [rs f xs ns|rs c t e|xs|xs]; try (by apply (Hsk 0 ks _ post IHl)).
    destruct (has_ret t || has_ret e) eqn:Hr; [|by apply (Hsk 0 ks _ post IHl)].
    injection Hre as Hre.
    destruct (close_wf K m rs c t e post ks l') as (? & ? & ? & ? & ?); try done. auto 10.
  - destruct op as [rs f xs ns|rs c t e|xs|xs]; try (by apply (Hsk (S d) ks _ post IHl)).
    pose proof (kyield_tail _ _ _ Hky) as Hkt.
    destruct (proj1 (wf_cons _ _ _) Hwf) as (How & _ & Hlink & Hwp).
    destruct (proj1 (owf_If _ _ _ _ _) How) as (Hwt & Hwe & Hgt & Hge).
    assert (Hkw' : kwf m ((rs, post) :: ks)) by done.
    assert (Hg' : ∀ b b', good_branch rs b →
       kyield ((rs, post) :: ks) b' →
       (has_ret b' = true ∨ (has_ret b' = has_ret b ∧ has_yield b' = has_yield b ∧ yops b' = yops b)) →
       good_branch rs b').
    { intros b b' [_ Hb] Hk [Hr|(Hr & Hy & _)]; (split; [done|]).
      - by rewrite Hr.
      - by rewrite Hr, Hy. }
    assert (Hyl : ∀ b b', (has_ret b = false → ∀ y, y ∈ yops b → y ∉ defs post) →
       (has_ret b' = true ∨ (has_ret b' = has_ret b ∧ has_yield b' = has_yield b ∧ yops b' = yops b)) →
       (has_ret b' = false → ∀ y, y ∈ yops b' → y ∉ defs post)).
    { intros b b' Hb [Hr|(Hr & _ & Hy)]; [by rewrite Hr|]. by rewrite Hr, Hy. }
    destruct (rect K d ((rs, post) :: ks) t) as [rt|] eqn:Et.
    + destruct rt as [t'| |]; try done. cbn [obind] in Hre. injection Hre as <-.
      pose proof (rect_depth _ _ _ _ _ Et) as Hpos.
      rewrite depth_cons, odepth_If in Hdep.
      rewrite defs_cons, odefs_If in Hnd, Hd. rewrite uses_cons, ouses_If in Hu.
      destruct (IHd ((rs, post) :: ks) t t' Et) as (Hw & Hn & Hs & Hk & Hy); try done.
      * by destruct Hgt.
      * destruct (Nat.max (depth t) (depth e)) eqn:E; lia.
      * rewrite kdefs_cons. exact (proj1 (nodup5 _ _ _ _ _ Hnd)).
      * intros y Hy. apply Hu. revert Hy. rewrite kuses_cons, !elem_of_app, elem_of_cons, !elem_of_app. tauto.
      * intros y Hy. apply Hd. revert Hy. rewrite kdefs_cons, !elem_of_app. tauto.
      * destruct Hlink as [Hlt Hle].
        { rewrite odepth_If. destruct (Nat.max (depth t) (depth e)) eqn:E; lia. }
        split; [|split; [|split; [|split]]].
        -- apply wf_cons. split; [|split; [done|split; [|done]]].
           ++ apply owf_If. split; [done|]. split; [done|]. split; [by apply (Hg' t)|done].
           ++ intros _. split; [by apply (Hyl t)|done].
        -- rewrite defs_cons, odefs_If.
           assert (Ht' : ∀ y, y ∈ defs t' → y ∈ rs ++ defs e ++ defs post → False).
           { intros y Hin Hin'. destruct (Hs y Hin) as [Hin2|Hge2].
             - rewrite !NoDup_app in Hnd. destruct Hnd as (((_ & Hd1 & _ & Hd2 & _) & Hd3 & Hnp) & _ & _).
               rewrite !elem_of_app in Hin'. destruct Hin' as [Hi|[Hi|Hi]].
               + apply (Hd1 y Hi). rewrite elem_of_app. auto.
               + by apply (Hd2 y).
               + apply (Hd3 y); [rewrite !elem_of_app; auto|done].
             - assert (y < K); [|lia]. apply Hd. revert Hin'. rewrite !elem_of_app. tauto. }
           rewrite !NoDup_app in Hnd. rewrite !NoDup_app.
           destruct Hnd as (((Hrs & Hd1 & _ & Hd2 & Hde) & Hd3 & Hnp) & _ & _).
           split; [|split; [|done]].
           ++ split; [done|]. split; [|split; [done|split; [|done]]].
              ** intros y Hi. rewrite !not_elem_of_app. split.
                 --- intros Hi'. apply (Ht' y Hi'). rewrite !elem_of_app. auto.
                 --- intros Hi'. apply (Hd1 y Hi). rewrite elem_of_app. auto.
              ** intros y Hi Hi'. apply (Ht' y Hi). rewrite !elem_of_app. auto.
           ++ intros y Hi Hi'. apply elem_of_app in Hi as [Hi|Hi].
              ** apply (Hd3 y); [rewrite !elem_of_app; auto|done].
              ** apply elem_of_app in Hi as [Hi|Hi].
                 --- apply (Ht' y Hi). rewrite !elem_of_app. auto.
                 --- apply (Hd3 y); [rewrite !elem_of_app; auto|done].
        -- intros y. rewrite !defs_cons, !odefs_If, !elem_of_app.
           intros [[?|[Hin|?]]|?]; auto. destruct (Hs y Hin); auto.
        -- by apply kyield_cons.
        -- right. done.
    + destruct (rect K d ((rs, post) :: ks) e) as [re|] eqn:Ee; [|by apply (Hsk (S d) ks _ post IHl)].
      destruct re as [e'| |]; try done. cbn [obind] in Hre. injection Hre as <-.
      pose proof (rect_depth _ _ _ _ _ Ee) as Hpos.
      rewrite depth_cons, odepth_If in Hdep.
      rewrite defs_cons, odefs_If in Hnd, Hd. rewrite uses_cons, ouses_If in Hu.
      destruct (IHd ((rs, post) :: ks) e e' Ee) as (Hw & Hn & Hs & Hk & Hy); try done.
      * by destruct Hge.
      * destruct (Nat.max (depth t) (depth e)) eqn:E; lia.
      * rewrite kdefs_cons. exact (proj2 (nodup5 _ _ _ _ _ Hnd)).
      * intros y Hy. apply Hu. revert Hy. rewrite kuses_cons, !elem_of_app, elem_of_cons, !elem_of_app. tauto.
      * intros y Hy. apply Hd. revert Hy. rewrite kdefs_cons, !elem_of_app. tauto.
      * destruct Hlink as [Hlt Hle].
        { rewrite odepth_If. destruct (Nat.max (depth t) (depth e)) eqn:E; lia. }
        split; [|split; [|split; [|split]]].
        -- apply wf_cons. split; [|split; [done|split; [|done]]].
           ++ apply owf_If. split; [done|]. split; [done|]. split; [done|by apply (Hg' e)].
           ++ intros _. split; [done|by apply (Hyl e)].
        -- rewrite defs_cons, odefs_If.
           assert (Ht' : ∀ y, y ∈ defs e' → y ∈ rs ++ defs t ++ defs post → False).
           { intros y Hin Hin'. destruct (Hs y Hin) as [Hin2|Hge2].
             - rewrite !NoDup_app in Hnd. destruct Hnd as (((_ & Hd1 & _ & Hd2 & _) & Hd3 & Hnp) & _ & _).
               rewrite !elem_of_app in Hin'. destruct Hin' as [Hi|[Hi|Hi]].
               + apply (Hd1 y Hi). rewrite elem_of_app. auto.
               + by apply (Hd2 y).
               + apply (Hd3 y); [rewrite !elem_of_app; auto|done].
             - assert (y < K); [|lia]. apply Hd. revert Hin'. rewrite !elem_of_app. tauto. }
           rewrite !NoDup_app in Hnd. rewrite !NoDup_app.
           destruct Hnd as (((Hrs & Hd1 & Hdt & Hd2 & _) & Hd3 & Hnp) & _ & _).
           split; [|split; [|done]].
           ++ split; [done|]. split; [|split; [done|split; [|done]]].
              ** intros y Hi. rewrite !not_elem_of_app. split.
                 --- intros Hi'. apply (Hd1 y Hi). rewrite elem_of_app. auto.
                 --- intros Hi'. apply (Ht' y Hi'). rewrite !elem_of_app. auto.
              ** intros y Hi Hi'. apply (Ht' y Hi'). rewrite !elem_of_app. auto.
           ++ intros y Hi Hi'. apply elem_of_app in Hi as [Hi|Hi].
              ** apply (Hd3 y); [rewrite !elem_of_app; auto|done].
              ** apply elem_of_app in Hi as [Hi|Hi].
                 --- apply (Hd3 y); [rewrite !elem_of_app; auto|done].
                 --- apply (Ht' y Hi). rewrite !elem_of_app. auto.
        -- intros y. rewrite !defs_cons, !odefs_If, !elem_of_app.
           intros [[?|[?|Hin]]|?]; auto. destruct (Hs y Hin); auto.
        -- by apply kyield_cons.
        -- right. done.
Qed.
