(** Property C21: the bounded set. *)
From stdpp Require Import base numbers sorting sets list.
From Coq Require Import Lia.
From Verif Require Import CppBase UtilModel.
Local Open Scope Z_scope.

(** [s] is the ascending list of the K smallest distinct values of [vs] (all of them if there are fewer than K). *)
Definition k_smallest (K : nat) (vs s : list Z) : Prop :=
  StronglySorted Z.lt s /\ (forall x, x ∈ s -> x ∈ vs) /\ (length s <= K)%nat /\
  (forall x, x ∈ vs -> x ∉ s -> (length s = K)%nat /\ forall y, y ∈ s -> y < x).

Notation sorted s := (StronglySorted Z.lt s).
Lemma set_insert_elem x s y : y ∈ set_insert x s <-> y = x \/ y ∈ s.
Proof.
  induction s as [|z s IH]; simpl; [rewrite elem_of_list_singleton; split; [auto|intros [?|H]; [done|by apply elem_of_nil in H]]|].
  case_decide; [by rewrite !elem_of_cons|]. case_decide as H2; [subst; rewrite elem_of_cons; tauto|]. rewrite !elem_of_cons, IH. tauto.
Qed.
Lemma set_insert_sorted x s : sorted s -> sorted (set_insert x s).
Proof.
  induction 1 as [|z s Hs IH HF]; simpl; [repeat constructor|]. case_decide as H1.
  - constructor; [by constructor|]. constructor; [done|]. eapply Forall_impl; [exact HF|]. simpl. lia.
  - case_decide as H2; [by constructor|]. constructor; [done|]. apply Forall_forall. intros y Hy. apply set_insert_elem in Hy as [->|Hy]; [lia|].
    rewrite Forall_forall in HF. auto.
Qed.
Lemma set_insert_length x s : sorted s -> length (set_insert x s) = if decide (x ∈ s) then length s else S (length s).
Proof.
  induction 1 as [|z s Hs IH HF]; simpl; [done|]. rewrite Forall_forall in HF. destruct (decide (x < z)) as [H1|H1].
  - rewrite decide_False; [done|]. intros H. apply elem_of_cons in H as [->|H]; [lia|]. specialize (HF x H). lia.
  - destruct (decide (x = z)) as [H2|H2]; [rewrite decide_True; [done|subst; apply elem_of_list_here]|]. simpl. rewrite IH.
    destruct (decide (x ∈ s)) as [H|H]; [rewrite decide_True; [done|by apply elem_of_list_further]|].
    rewrite decide_False; [done|]. intros Hx. apply elem_of_cons in Hx as [?|?]; [by subst|done].
Qed.
Lemma sorted_snoc_inv s t : sorted (s ++ [t]) -> sorted s /\ forall x, x ∈ s -> x < t.
Proof.
  induction s as [|z s IH]; simpl; intros H; [split; [constructor|]; intros x Hx; by apply elem_of_nil in Hx|].
  apply StronglySorted_inv in H as [H HF]. destruct (IH H) as [H1 H2]. apply Forall_app in HF as [HF1 HF2]. split; [by constructor|].
  intros x Hx. apply elem_of_cons in Hx as [->|Hx]; [|auto]. by apply Forall_cons in HF2 as [? _].
Qed.

(** What one push does. *)
Lemma push_cases K s v : (0 < K)%nat -> sorted s -> (length s <= K)%nat ->
  exists s', ubs_push K s v = Ok s' /\ sorted s' /\ (length s' <= K)%nat /\
    (((length s < K)%nat /\ s' = set_insert v s) \/
     (exists s0 t, s = s0 ++ [t] /\ length s = K /\ ((v < t /\ s' = set_insert v s0) \/ (t <= v /\ s' = s)))).
Proof.
  intros HK Hs Hl. unfold ubs_push. case_decide as Hd.
  - eexists. split; [done|]. split; [by apply set_insert_sorted|]. split; [|left; done]. rewrite set_insert_length by done. case_decide; lia.
  - destruct s as [|a s _] using rev_ind; [simpl in Hd; lia|]. unfold ubs_top. rewrite last_snoc. cbn [obind].
    assert (Hpop : ubs_pop (s ++ [a]) = s).
    { unfold ubs_pop. rewrite app_length. simpl. replace (length s + 1 - 1)%nat with (length s) by lia. apply take_app. }
    rewrite Hpop. apply sorted_snoc_inv in Hs as Hs'. destruct Hs' as [Hs0 Hlt]. rewrite app_length in *. simpl in *.
    case_decide as Hv.
    + eexists. split; [done|]. split; [by apply set_insert_sorted|]. split; [rewrite set_insert_length by done; case_decide; lia|].
      right. exists s, a. rewrite ?app_length. simpl. split; [done|]. split; [lia|]. left. done.
    + eexists. split; [done|]. split; [done|]. split; [rewrite ?app_length; simpl; lia|]. right. exists s, a. rewrite ?app_length. simpl.
      split; [done|]. split; [lia|]. right. split; [lia|done].
Qed.

(** If no value is pushed twice, the set holds the K smallest values. *)
Theorem C21_distinct_pushes K vs : (0 < K)%nat -> NoDup vs -> exists s, ubs_pushes K [] vs = Ok s /\ k_smallest K vs s.
Proof.
  intros HK Hnd.
  assert (Hgen : forall vs pre s, NoDup (pre ++ vs) -> k_smallest K pre s -> exists s', ubs_pushes K s vs = Ok s' /\ k_smallest K (pre ++ vs) s').
  { clear vs Hnd. induction vs as [|v vs IH]; intros pre s Hnd Hk; simpl; [rewrite app_nil_r; eauto|].
    destruct Hk as (Hs & Hin & Hl & Hmiss). destruct (push_cases K s v HK Hs Hl) as (s' & -> & Hs' & Hl' & Hc). cbn [obind].
    replace (pre ++ v :: vs) with ((pre ++ [v]) ++ vs) in * by (by rewrite <- app_assoc). apply IH; [done|].
    assert (Hv : v ∉ pre).
    { apply NoDup_app in Hnd as (Hnd & _ & _). apply NoDup_app in Hnd as (_ & Hnd & _). intros H. apply (Hnd v H), elem_of_list_here. }
    assert (Hvs : v ∉ s) by auto. split; [done|]. destruct Hc as [[Hlt ->]|(s0 & t & -> & HlK & Hc)].
    - split; [intros x Hx; apply set_insert_elem in Hx as [->|Hx]; apply elem_of_app; [right; apply elem_of_list_here|left; auto]|]. split; [done|].
      intros x Hx Hn. rewrite set_insert_elem in Hn. apply elem_of_app in Hx as [Hx|Hx]; [|apply elem_of_list_singleton in Hx; tauto].
      destruct (Hmiss x Hx) as [? _]; [tauto|lia].
    - apply sorted_snoc_inv in Hs as [Hs0 Hlt0]. rewrite app_length in HlK. simpl in HlK.
      assert (Hvs0 : v ∉ s0) by (intros H; apply Hvs, elem_of_app; by left).
      destruct Hc as [[Hlt ->]|[Hge ->]].
      + split; [intros x Hx; apply set_insert_elem in Hx as [->|Hx]; apply elem_of_app; [right; apply elem_of_list_here|left; apply Hin, elem_of_app; by left]|].
        split; [done|]. intros x Hx Hn. rewrite set_insert_elem in Hn. split; [rewrite set_insert_length by done; rewrite decide_False by done; lia|].
        intros y Hy. apply set_insert_elem in Hy. apply elem_of_app in Hx as [Hx|Hx]; [|apply elem_of_list_singleton in Hx; tauto].
        destruct (decide (x = t)) as [->|Hne]; [destruct Hy as [->|Hy]; auto|].
        destruct (Hmiss x Hx) as [_ Hb]; [intros H; apply elem_of_app in H as [H|H]; [tauto|by apply elem_of_list_singleton in H]|].
        assert (t < x) by (apply Hb, elem_of_app; right; apply elem_of_list_here). destruct Hy as [->|Hy]; [lia|]. apply Hlt0 in Hy. lia.
      + split; [intros x Hx; apply elem_of_app; left; auto|]. split; [done|]. intros x Hx Hn. split; [rewrite app_length; simpl; lia|].
        intros y Hy. apply elem_of_app in Hx as [Hx|Hx]; [by apply Hmiss|]. apply elem_of_list_singleton in Hx as ->.
        apply elem_of_app in Hy as [Hy|Hy]; [apply Hlt0 in Hy; lia|]. apply elem_of_list_singleton in Hy as ->.
        destruct (decide (v = t)) as [->|]; [|lia]. exfalso. apply Hvs, elem_of_app. right. apply elem_of_list_here. }
  destruct (Hgen vs [] []) as (s & E & H); [done| |].
  - split; [constructor|]. split; [done|]. split; [simpl; lia|]. intros x Hx. by apply elem_of_nil in Hx.
  - eauto.
Qed.

(** With repetitions: never more than K values, all of them pushed, and the smallest pushed value is always among them. *)
Theorem C21_always K vs : (0 < K)%nat -> exists s, ubs_pushes K [] vs = Ok s /\ sorted s /\ (length s <= K)%nat /\ (forall x, x ∈ s -> x ∈ vs) /\
  forall m, m ∈ vs -> (forall x, x ∈ vs -> m <= x) -> m ∈ s.
Proof.
  intros HK.
  assert (Hgen : forall vs pre s, sorted s -> (length s <= K)%nat -> (forall x, x ∈ s -> x ∈ pre) -> (forall m, m ∈ pre -> (forall x, x ∈ pre -> m <= x) -> m ∈ s) ->
    exists s', ubs_pushes K s vs = Ok s' /\ sorted s' /\ (length s' <= K)%nat /\ (forall x, x ∈ s' -> x ∈ pre ++ vs) /\
      forall m, m ∈ pre ++ vs -> (forall x, x ∈ pre ++ vs -> m <= x) -> m ∈ s').
  { clear vs. induction vs as [|v vs IH]; intros pre s Hs Hl Hin Hmin; simpl; [rewrite app_nil_r; eauto 10|].
    destruct (push_cases K s v HK Hs Hl) as (s' & -> & Hs' & Hl' & Hc). cbn [obind].
    replace (pre ++ v :: vs) with ((pre ++ [v]) ++ vs) by (by rewrite <- app_assoc). apply IH; [done|done| |].
    - intros x Hx. apply elem_of_app. rewrite elem_of_list_singleton.
      destruct Hc as [[_ ->]|(s0 & t & -> & _ & [[_ ->]|[_ ->]])]; [apply set_insert_elem in Hx as [->|Hx]; auto| |left; auto].
      apply set_insert_elem in Hx as [->|Hx]; [auto|]. left. apply Hin, elem_of_app. auto.
    - intros m Hm Hle.
      assert (Hv : m <= v) by (apply Hle, elem_of_app; right; apply elem_of_list_here).
      assert (Hp : m ∈ pre -> m ∈ s) by (intros H; apply Hmin; [done|]; intros x Hx; apply Hle, elem_of_app; by left).
      apply elem_of_app in Hm. rewrite elem_of_list_singleton in Hm.
      destruct Hc as [[_ ->]|(s0 & t & -> & HlK & [[Hlt ->]|[Hge ->]])].
      + apply set_insert_elem. tauto.
      + apply set_insert_elem. destruct Hm as [Hm| ->]; [|by left]. apply Hp in Hm. apply elem_of_app in Hm as [Hm|Hm]; [by right|].
        apply elem_of_list_singleton in Hm as ->. lia.
      + destruct Hm as [Hm| ->]; [by apply Hp|]. assert (Ht : t ∈ s0 ++ [t]) by (apply elem_of_app; right; apply elem_of_list_here).
        specialize (Hin t Ht). assert (v <= t) by (apply Hle, elem_of_app; by left). replace v with t by lia. done. }
  destruct (Hgen vs [] []) as (s & E & H1 & H2 & H3 & H4).
  - constructor.
  - simpl. lia.
  - done.
  - intros m Hm. by apply elem_of_nil in Hm.
  - exists s. auto.
Qed.

(** For all sequences the K smallest values are not kept: with K = 2, pushing 1, 5, 1, 7 leaves {1, 7}. *)
Theorem C21_repeated_pushes_refuted : exists s, ubs_pushes 2 [] [1; 5; 1; 7] = Ok s /\ s = [1; 7] /\ ~ k_smallest 2 [1; 5; 1; 7] s.
Proof.
  eexists. split; [vm_compute; reflexivity|]. split; [done|]. intros (_ & _ & _ & H).
  destruct (H 5) as [_ H5]; [set_solver|set_solver|]. specialize (H5 7 ltac:(set_solver)). lia.
Qed.
(** A bound of 0 leads to undefined behaviour at the first push. *)
Theorem C21_zero_bound_refuted v : ubs_push 0 [] v = UB.
Proof. done. Qed.
Example C21_example : ubs_pushes 3 [] [9; 2; 7; 5; 8; 1] = Ok [1; 2; 5].
Proof. vm_compute. reflexivity. Qed.

Print Assumptions C21_distinct_pushes.
Print Assumptions C21_always.
Print Assumptions C21_repeated_pushes_refuted.
Print Assumptions C21_zero_bound_refuted.
