From stdpp Require Import base list sets.
From Coq Require Import Lia.
From Verif Require Import WorkStealingModel.

Section Proofs.
Context {T : Type}.
Implicit Types (s : state T).

Lemma concat_insert_perm {A B} (f : A -> list B) l i x y : l !! i = Some x ->
  f x ++ concat (f <$> <[i := y]> l) ≡ₚ f y ++ concat (f <$> l).
Proof.
  revert i. induction l as [|z l IH]; intros [|i] H; try discriminate.
  - injection H as ->. change (<[0 := y]> (x :: l)) with (y :: l). rewrite !fmap_cons. cbn [concat].
    apply Permutation_app_swap_app.
  - simpl in H. specialize (IH _ H).
    change (<[S i := y]> (z :: l)) with (z :: <[i := y]> l). rewrite !fmap_cons. cbn [concat].
    rewrite (Permutation_app_swap_app (f x)), (Permutation_app_swap_app (f y)). by apply Permutation_app_head.
Qed.

Definition CE s (q : nat) : Prop := queues s !! q = Some (Queue [] true).

Definition winv (n : nat) (c : wcfg) s (w : worker T) : Prop :=
  match wpc w with
  | POwn => True
  | PSeqPri q => 1 < n /\ (exists k, 1 <= k <= n /\ q = (own c + k) mod n) /\ CE s (own c)
  | PSeq q => 1 < n /\ exists k, 1 <= k <= n /\ q = (own c + k) mod n /\ forall j, j < k -> CE s ((own c + j) mod n)
  | PRandPri e => 1 < n /\ length e = 256 /\ forall q, e !! q = Some true -> q < n /\ dom c q = true /\ CE s q
  | PRand e => 1 < n /\ length e = 256 /\ forall q, e !! q = Some true -> q < n /\ CE s q
  | PStop => held w = None /\ forall q, q < n -> CE s q
  | PUB => 256 < n
  end.

Record inv (n : nat) (cfgs : list wcfg) (p0 : list (pop T)) s : Prop := {
  i_nq : length (queues s) = n;
  i_nw : length (workers s) = length cfgs;
  i_prod : exists pre, p0 = pre ++ prod s /\ forall q qu, queues s !! q = Some qu -> (qclosed qu = true <-> PClose q ∈ pre);
  i_perm : (executed s).*2 ++ concat ((fun w => option_list (held w)) <$> workers s) ++ concat (items <$> queues s) ++ tasks_of (prod s)
           ≡ₚ tasks_of p0;
  i_w : forall i c w, cfgs !! i = Some c -> workers s !! i = Some w -> winv n c s w
}.

(** Counting true entries. *)
Lemma count_true_app a b : count_true (a ++ b) = count_true a + count_true b.
Proof. induction a as [|[] a IH]; simpl; lia. Qed.
Lemma count_true_le e : count_true e <= length e.
Proof. induction e as [|[] e IH]; simpl; lia. Qed.
Lemma count_true_full e : length e <= count_true e -> forall i, i < length e -> e !! i = Some true.
Proof.
  induction e as [|b e IH]; simpl; intros H i Hi; [lia|]. pose proof (count_true_le e).
  destruct b; [|lia]. destruct i; [done|]. simpl. apply IH; lia.
Qed.
Lemma count_true_zero e : (forall i, e !! i <> Some true) -> count_true e = 0.
Proof.
  induction e as [|b e IH]; simpl; intros H; [done|]. destruct b; [exfalso; by apply (H 0)|].
  apply IH. intros i. apply (H (S i)).
Qed.
Lemma count_true_all e n : n <= count_true e -> (forall q, e !! q = Some true -> q < n) -> forall q, q < n -> e !! q = Some true.
Proof.
  intros H1 H2 q Hq. rewrite <- (take_drop n e) in H1. rewrite count_true_app in H1.
  rewrite (count_true_zero (drop n e)) in H1.
  2:{ intros i Hi. rewrite lookup_drop in Hi. apply H2 in Hi. lia. }
  rewrite Nat.add_0_r in H1. pose proof (count_true_le (take n e)) as H3. pose proof (take_length e n) as H4.
  assert (E : take n e !! q = Some true) by (apply count_true_full; lia). by rewrite lookup_take in E by lia.
Qed.

(** A queue that is closed and empty stays so. *)
Lemma CE_insert s s' q0 qu q : queues s' = <[q0 := qu]> (queues s) -> (CE s q0 -> qu = Queue [] true) -> CE s q -> CE s' q.
Proof.
  unfold CE. intros E H Hq. rewrite E. destruct (decide (q = q0)) as [->|Hne].
  - rewrite list_lookup_insert; [by rewrite H|]. eapply lookup_lt_Some; exact Hq.
  - by rewrite list_lookup_insert_ne.
Qed.

Lemma CE_step n cfgs p0 s s' q : well_formed n p0 -> inv n cfgs p0 s -> step cfgs s s' -> CE s q -> CE s' q.
Proof.
  intros (W1 & W2 & W3 & W4) I H. destruct (i_prod _ _ _ _ I) as (pre & Ep & Hpre). revert I Ep Hpre.
  destruct H as [q0 t p qu s Hp Hq|q0 p qu s Hp Hq|i p t s Hi|i c p r k s Hi Hc Hn|i c p r q0 k t l b s Hi Hc Hn Hq|i c p r q0 k s Hi Hc Hn Hq];
    intros I Ep Hpre; auto.
  - intros Hce. eapply CE_insert; [reflexivity| |exact Hce]. intros Hq0. exfalso. unfold CE in Hq0.
    destruct (Hpre _ _ Hq0) as [Hcl _]. specialize (Hcl eq_refl). apply elem_of_list_split in Hcl as (l1 & l2 & ->).
    apply (W4 l1 (l2 ++ prod s) q0 t); [by rewrite Ep, <- app_assoc|]. rewrite Hp. set_solver.
  - intros Hce. eapply CE_insert; [reflexivity| |exact Hce]. unfold CE. intros Hq0. rewrite Hq in Hq0. injection Hq0 as ->. done.
  - intros Hce. eapply CE_insert; [reflexivity| |exact Hce]. unfold CE. intros Hq0. congruence.
Qed.

Lemma winv_mono n c s s' w : (forall q, CE s q -> CE s' q) -> winv n c s w -> winv n c s' w.
Proof.
  intros H. unfold winv. destruct (wpc w); auto.
  - intros (? & ? & ?). auto.
  - intros (? & k & ? & ? & ?). split; [done|]. exists k. auto.
  - intros (? & ? & HH). split_and!; auto. intros q Hq. destruct (HH q Hq) as (? & ? & ?). auto.
  - intros (? & ? & HH). split_and!; auto. intros q Hq. destruct (HH q Hq) as (? & ?). auto.
  - intros (? & ?). auto.
Qed.

Lemma mod_same o k n : 1 <= k <= n -> o < n -> (o + k) mod n = o -> k = n.
Proof.
  intros Hk Ho E. destruct (decide (k = n)); [done|]. exfalso.
  destruct (decide (o + k < n)).
  - rewrite Nat.mod_small in E by lia. lia.
  - replace (o + k) with (o + k - n + 1 * n) in E by lia. rewrite Nat.mod_add, Nat.mod_small in E by lia. lia.
Qed.

Lemma mod_all o n (P : nat -> Prop) : o < n -> (forall j, j < n -> P ((o + j) mod n)) -> forall q, q < n -> P q.
Proof.
  intros Ho H q Hq. destruct (decide (o <= q)).
  - specialize (H (q - o) ltac:(lia)). replace (o + (q - o)) with q in H by lia. by rewrite Nat.mod_small in H.
  - specialize (H (q + n - o) ltac:(lia)). replace (o + (q + n - o)) with (q + 1 * n) in H by lia.
    by rewrite Nat.mod_add, Nat.mod_small in H by lia.
Qed.

Lemma succ_mod o k n : 0 < n -> ((o + k) mod n + 1) mod n = (o + S k) mod n.
Proof. intros. rewrite Nat.add_mod_idemp_l by lia. f_equal. lia. Qed.

Lemma no_eof_lookup q : no_eof !! q <> Some true.
Proof. unfold no_eof. intros H. apply lookup_replicate in H as [? _]. discriminate. Qed.

(** Local moves keep the worker invariant. *)
Lemma next_goto n c s p r k : own c < n -> next n c r p = Some (Goto k) ->
  winv n c s (Worker p None) -> winv n c s (Worker k None).
Proof.
  intros Ho. unfold winv. cbn [wpc held]. destruct p as [|q|q|e|e| |]; cbn [next]; try discriminate.
  - repeat case_match; try discriminate; intros [= <-].
    + intros (Hn & (k0 & Hk & ->) & Hce). split; [done|]. exists 1. split; [lia|].
      split. { rewrite e. done. }
      intros j Hj. replace j with 0 by lia. rewrite Nat.add_0_r, Nat.mod_small by lia. done.
    + intros (Hn & (k0 & Hk & ->) & Hce). split_and!; auto.
      assert (k0 <> n). { intros ->. apply n0. replace (own c + n) with (own c + 1 * n) by lia. by rewrite Nat.mod_add, Nat.mod_small by lia. }
      exists (S k0). split; [lia|]. apply succ_mod; lia.
  - case_decide as D; try discriminate; intros [= <-]. intros (Hn & k0 & Hk & Hq & Hce). split; [done|].
    rewrite D in Hq. symmetry in Hq. apply mod_same in Hq; [|lia..]. subst k0. by apply (mod_all (own c)).
  - case_decide as D.
    + case_match; [|intros [= <-]; done]. case_match eqn:E; [case_match|]; try discriminate; intros [= <-]; [done|].
      intros (Hn & Hl & _). apply lookup_ge_None in E. pose proof (Nat.mod_upper_bound r n). lia.
    + intros [= <-]. intros (Hn & Hl & He). split_and!; auto. intros q Hq. destruct (He _ Hq) as (? & ? & ?). auto.
  - case_decide as D.
    + case_match eqn:E; [case_match|]; try discriminate; intros [= <-]; [done|].
      intros (Hn & Hl & _). apply lookup_ge_None in E. pose proof (Nat.mod_upper_bound r n). lia.
    + intros [= <-]. intros (Hn & Hl & He). split; [done|]. intros q Hq. apply He.
      apply (count_true_all e n); [lia| |done]. intros q' Hq'. by apply He.
Qed.

(** Receiving the end marker from [q] keeps the worker invariant. *)
Lemma next_eof n c s p r q k : own c < n -> length (queues s) = n -> next n c r p = Some (DeqQ q k) -> CE s q ->
  winv n c s (Worker p None) -> winv n c s (Worker k None).
Proof.
  intros Ho HL. unfold winv. cbn [wpc held]. destruct p as [|q0|q0|e|e| |]; cbn [next]; try discriminate.
  - intros [= <- <-] Hce _. unfold after_own. case_decide as D.
    + assert (S1 : exists k, 1 <= k <= n /\ (own c + 1) mod n = (own c + k) mod n) by (exists 1; split; [lia|done]).
      assert (S2 : 1 < n /\ exists k, 1 <= k <= n /\ (own c + 1) mod n = (own c + k) mod n /\ forall j, j < k -> CE s ((own c + j) mod n)).
      { split; [done|]. exists 1. split; [lia|]. split; [done|]. intros j Hj. replace j with 0 by lia.
        rewrite Nat.add_0_r, Nat.mod_small by lia. done. }
      destruct (policy c); [done|destruct (percpu c); auto| |destruct (percpu c)];
        split_and!; auto; intros q Hq; by apply no_eof_lookup in Hq.
    + split; [done|]. intros q Hq. by replace q with (own c) by lia.
  - repeat case_match; try discriminate; intros [= <- <-] Hce (Hn & (k0 & Hk & ->) & Hce0). split_and!; auto.
    assert (k0 <> n). { intros ->. apply n0. replace (own c + n) with (own c + 1 * n) by lia. by rewrite Nat.mod_add, Nat.mod_small by lia. }
    exists (S k0). split; [lia|]. apply succ_mod; lia.
  - case_decide as D; try discriminate; intros [= <- <-] Hce (Hn & k0 & Hk & -> & Hce0). split; [done|].
    assert (k0 <> n). { intros ->. apply D. replace (own c + n) with (own c + 1 * n) by lia. by rewrite Nat.mod_add, Nat.mod_small by lia. }
    exists (S k0). split; [lia|]. split; [apply succ_mod; lia|]. intros j Hj.
    destruct (decide (j = k0)) as [->|]; [done|apply Hce0; lia].
  - case_decide as D; [|discriminate]. case_match eqn:E0; [|discriminate]. case_match eqn:E; [|discriminate]. case_match; [discriminate|].
    intros [= <- <-] Hce (Hn & Hl & He). split_and!; [done|by rewrite insert_length|].
    intros q' Hq'. destruct (decide (q' = r mod n)) as [->|Hne].
    + split_and!; auto. apply Nat.mod_upper_bound. lia.
    + rewrite list_lookup_insert_ne in Hq' by done. auto.
  - case_decide as D; [|discriminate]. case_match eqn:E; [|discriminate]. case_match; [discriminate|].
    intros [= <- <-] Hce (Hn & Hl & He). split_and!; [done|by rewrite insert_length|].
    intros q' Hq'. destruct (decide (q' = r mod n)) as [->|Hne].
    + split; auto. apply Nat.mod_upper_bound. lia.
    + rewrite list_lookup_insert_ne in Hq' by done. auto.
Qed.

Lemma winv_held n c s p t t' : p <> PStop -> winv n c s (Worker p t) -> winv n c s (Worker p t').
Proof. unfold winv. cbn [wpc held]. destruct p; auto. done. Qed.

Lemma next_not_stop n c r p a : next n c r p = Some a -> p <> PStop.
Proof. intros H ->. discriminate. Qed.

Ltac perm_ins f H y := pose proof (concat_insert_perm f _ _ _ y H) as PI; cbn [held items option_list] in PI; simpl in PI.

Lemma inv_step n cfgs p0 s s' : well_formed n p0 -> Forall (fun c => own c < n) cfgs -> inv n cfgs p0 s -> step cfgs s s' -> inv n cfgs p0 s'.
Proof.
  intros WF OW I H. pose proof (fun q => CE_step _ _ _ _ _ q WF I H) as MON.
  assert (MW : forall i c w, cfgs !! i = Some c -> workers s !! i = Some w -> winv n c s' w).
  { intros i c w Hc Hw. eapply winv_mono; [exact MON|]. eapply i_w; eauto. }
  revert MON MW. destruct I as [NQ NW (pre & Ep & Hpre) PM IW]. revert NQ NW Ep Hpre PM IW.
  destruct H as [q0 t p qu s Hp Hq|q0 p qu s Hp Hq|i p t s Hi|i c p r k s Hi Hc Hn|i c p r q0 k t l b s Hi Hc Hn Hq|i c p r q0 k s Hi Hc Hn Hq];
    intros NQ NW Ep Hpre PM IW MON MW.
  - split; simpl.
    + by rewrite insert_length.
    + done.
    + exists (pre ++ [PEnq q0 t]). split; [rewrite Ep, Hp, <- app_assoc; done|].
      intros q qu' Hq'. destruct (decide (q = q0)) as [->|Hne].
      * rewrite list_lookup_insert in Hq' by (eapply lookup_lt_Some; exact Hq). injection Hq' as <-. simpl.
        rewrite (Hpre _ _ Hq). set_solver.
      * rewrite list_lookup_insert_ne in Hq' by done. rewrite (Hpre _ _ Hq'). set_solver.
    + rewrite <- PM, Hp. apply Permutation_app_head, Permutation_app_head. simpl.
      pose proof (concat_insert_perm items _ _ _ (Queue (items qu ++ [t]) (qclosed qu)) Hq) as PI. cbn [items] in PI.
      rewrite <- app_assoc in PI. apply Permutation_app_inv_l in PI. rewrite PI. simpl.
      apply Permutation_middle.
    + exact MW.
  - split; simpl.
    + by rewrite insert_length.
    + done.
    + exists (pre ++ [PClose q0]). split; [rewrite Ep, Hp, <- app_assoc; done|].
      intros q qu' Hq'. destruct (decide (q = q0)) as [->|Hne].
      * rewrite list_lookup_insert in Hq' by (eapply lookup_lt_Some; exact Hq). injection Hq' as <-. simpl. set_solver.
      * rewrite list_lookup_insert_ne in Hq' by done. rewrite (Hpre _ _ Hq'). set_solver.
    + rewrite <- PM, Hp. apply Permutation_app_head, Permutation_app_head. simpl.
      pose proof (concat_insert_perm items _ _ _ (Queue (items qu) true) Hq) as PI. cbn [items] in PI.
      apply Permutation_app_inv_l in PI. by rewrite PI.
    + exact MW.
  - split; simpl.
    + done.
    + by rewrite insert_length.
    + eauto.
    + rewrite <- PM, fmap_app, <- app_assoc. apply Permutation_app_head. simpl.
      pose proof (concat_insert_perm (fun w => option_list (held w)) _ _ _ (Worker p None) Hi) as PI. simpl in PI.
      rewrite app_comm_cons. apply Permutation_app_tail. exact PI.
    + intros j c w Hc Hw. destruct (decide (j = i)) as [->|Hne].
      * rewrite list_lookup_insert in Hw by (eapply lookup_lt_Some; exact Hi). injection Hw as <-.
        pose proof (MW _ _ _ Hc Hi) as M. destruct (decide (p = PStop)) as [->|Hps] || destruct p; try (eapply winv_held; [|exact M]; done).
        destruct M as [? _]; discriminate.
      * rewrite list_lookup_insert_ne in Hw by done. eauto.
  - rewrite NQ in Hn. split; simpl; auto.
    + by rewrite insert_length.
    + eauto.
    + rewrite <- PM. apply Permutation_app_head, Permutation_app_tail.
      exact (concat_insert_perm (fun w => option_list (held w)) _ _ _ (Worker k None) Hi).
    + intros j c' w Hc' Hw. destruct (decide (j = i)) as [->|Hne].
      * rewrite list_lookup_insert in Hw by (eapply lookup_lt_Some; exact Hi). injection Hw as <-.
        rewrite Hc in Hc'. injection Hc' as <-. eapply next_goto; eauto. exact (Forall_lookup_1 _ _ _ _ OW Hc).
      * rewrite list_lookup_insert_ne in Hw by done. eauto.
  - split; simpl; auto.
    + by rewrite insert_length.
    + by rewrite insert_length.
    + exists pre. split; [done|]. intros q qu' Hq'. destruct (decide (q = q0)) as [->|Hne].
      * rewrite list_lookup_insert in Hq' by (eapply lookup_lt_Some; exact Hq). injection Hq' as <-. simpl. exact (Hpre _ _ Hq).
      * rewrite list_lookup_insert_ne in Hq' by done. exact (Hpre _ _ Hq').
    + rewrite <- PM. apply Permutation_app_head. rewrite !app_assoc. apply Permutation_app_tail.
      pose proof (concat_insert_perm items _ _ _ (Queue l b) Hq) as PI. simpl in PI.
      rewrite Permutation_middle in PI. apply Permutation_app_inv_l in PI.
      pose proof (concat_insert_perm (fun w => option_list (held w)) _ _ _ (Worker p (Some t)) Hi) as PW. simpl in PW.
      rewrite PW, <- PI. simpl. apply Permutation_middle.
    + intros j c' w Hc' Hw. destruct (decide (j = i)) as [->|Hne].
      * rewrite list_lookup_insert in Hw by (eapply lookup_lt_Some; exact Hi). injection Hw as <-.
        eapply winv_held; [eapply next_not_stop; exact Hn|]. eapply MW; eauto.
      * rewrite list_lookup_insert_ne in Hw by done. eauto.
  - rewrite NQ in Hn. split; simpl; auto.
    + by rewrite insert_length.
    + eauto.
    + rewrite <- PM. apply Permutation_app_head, Permutation_app_tail.
      exact (concat_insert_perm (fun w => option_list (held w)) _ _ _ (Worker k None) Hi).
    + intros j c' w Hc' Hw. destruct (decide (j = i)) as [->|Hne].
      * rewrite list_lookup_insert in Hw by (eapply lookup_lt_Some; exact Hi). injection Hw as <-.
        rewrite Hc in Hc'. injection Hc' as <-. eapply next_eof; eauto. exact (Forall_lookup_1 _ _ _ _ OW Hc).
      * rewrite list_lookup_insert_ne in Hw by done. eauto.
Qed.

Lemma concat_nil_fmap {A B} (f : A -> list B) l : Forall (fun x => f x = []) l -> concat (f <$> l) = [].
Proof. induction 1 as [|x l E _ IH]; [done|]. rewrite fmap_cons. simpl. by rewrite E, IH. Qed.

Lemma inv_init n cfgs p0 : inv n cfgs p0 (init n cfgs p0).
Proof.
  split; simpl.
  - apply replicate_length.
  - apply replicate_length.
  - exists []. split; [done|]. intros q qu Hq. apply lookup_replicate in Hq as [-> _]. simpl. set_solver.
  - rewrite !concat_nil_fmap; [done| |]; apply Forall_replicate; done.
  - intros i c w Hc Hw. apply lookup_replicate in Hw as [-> _]. done.
Qed.

Lemma inv_reachable n cfgs p0 s : well_formed n p0 -> Forall (fun c => own c < n) cfgs -> reachable n cfgs p0 s -> inv n cfgs p0 s.
Proof. intros WF OW. induction 1; [apply inv_init|eapply inv_step; eauto]. Qed.

Lemma stopped_drained n cfgs p0 s i w : well_formed n p0 -> Forall (fun c => own c < n) cfgs -> reachable n cfgs p0 s ->
  workers s !! i = Some w -> wpc w = PStop -> drained s.
Proof.
  intros WF OW HR Hw Hp. pose proof (inv_reachable _ _ _ _ WF OW HR) as I.
  assert (exists c, cfgs !! i = Some c) as [c Hc].
  { apply lookup_lt_is_Some. rewrite <- (i_nw _ _ _ _ I). eapply lookup_lt_Some; exact Hw. }
  pose proof (i_w _ _ _ _ I _ _ _ Hc Hw) as M. unfold winv in M. rewrite Hp in M. destruct M as [_ M].
  apply Forall_lookup_2. intros q qu Hq. assert (q < n) by (rewrite <- (i_nq _ _ _ _ I); eapply lookup_lt_Some; exact Hq).
  specialize (M q ltac:(done)). unfold CE in M. rewrite Hq in M. injection M as ->. done.
Qed.

Lemma exactly_once n cfgs p0 s : 0 < n -> well_formed n p0 -> Forall (fun c => own c < n) cfgs -> cfgs <> [] -> reachable n cfgs p0 s ->
  all_stopped s -> (executed s).*2 ≡ₚ tasks_of p0.
Proof.
  intros Hn0 WF OW NE HR AS. pose proof (inv_reachable _ _ _ _ WF OW HR) as I.
  assert (exists w, workers s !! 0 = Some w) as [w Hw].
  { apply lookup_lt_is_Some. rewrite (i_nw _ _ _ _ I). destruct cfgs; [done|simpl; lia]. }
  pose proof (Forall_lookup_1 _ _ _ _ AS Hw) as [Hp _].
  pose proof (stopped_drained _ _ _ _ _ _ WF OW HR Hw Hp) as DR.
  pose proof (i_perm _ _ _ _ I) as PM.
  rewrite (concat_nil_fmap (fun w => option_list (held w))) in PM by (eapply Forall_impl; [exact AS|]; intros ? [_ E]; simpl; by rewrite E).
  rewrite (concat_nil_fmap items) in PM by (eapply Forall_impl; [exact DR|]; intros ? [E _]; exact E). simpl in PM.
  destruct (i_prod _ _ _ _ I) as (pre & Ep & Hpre).
  assert (tasks_of (prod s) = []) as E0.
  { destruct WF as (W1 & W2 & W3 & W4). destruct (tasks_of (prod s)) as [|t r] eqn:E; [done|exfalso].
    assert (Ht : t ∈ tasks_of (prod s)) by (rewrite E; left). unfold tasks_of in Ht. apply elem_of_list_omap in Ht as ([q t'|q] & Hin & [= ->]).
    assert (Hq : q < n) by (apply (W1 q t); rewrite Ep; apply elem_of_app; by right).
    assert (exists qu, queues s !! q = Some qu) as [qu Hqu] by (apply lookup_lt_is_Some; rewrite (i_nq _ _ _ _ I); done).
    pose proof (Forall_lookup_1 _ _ _ _ DR Hqu) as [_ Hcl]. apply (Hpre _ _ Hqu) in Hcl. apply elem_of_list_split in Hcl as (l1 & l2 & ->).
    apply (W4 l1 (l2 ++ prod s) q t); [by rewrite Ep, <- app_assoc|]. apply elem_of_app; by right. }
  rewrite E0, app_nil_r in PM. exact PM.
Qed.

Lemma no_ub n cfgs p0 s i w : n <= 256 -> well_formed n p0 -> Forall (fun c => own c < n) cfgs -> reachable n cfgs p0 s ->
  workers s !! i = Some w -> wpc w <> PUB.
Proof.
  intros Hn WF OW HR Hw Hp. pose proof (inv_reachable _ _ _ _ WF OW HR) as I.
  assert (exists c, cfgs !! i = Some c) as [c Hc].
  { apply lookup_lt_is_Some. rewrite <- (i_nw _ _ _ _ I). eapply lookup_lt_Some; exact Hw. }
  pose proof (i_w _ _ _ _ I _ _ _ Hc Hw) as M. unfold winv in M. rewrite Hp in M. lia.
Qed.

End Proofs.
