(** Progress and termination of the task queue. *)
From stdpp Require Import base list sets.
From Coq Require Import Lia.
From Verif Require Import ListUtil TaskQueueModel TaskQueueSpec TaskQueueProofs.

Section Live.
Context {T : Type}.
Implicit Types (s : state T) (p : list (op T)) (tr : list (event T)).

(** *** All steps are among a bounded number *)
Definition wop (n : nat) (o : op T) : nat := match o with Enq _ => 6 | Close => n + 2 | Deq => 1 | DeqLoop => 1 end.
Definition wmode (n : nat) (m : mode) : nat := match m with Run => 1 | Wait => 0 | NotifyOne => 3 | NotifyAll => n + 2 end.
Definition wth (n : nat) (th : thread T) : nat := sumw (wop n) (prog th) + wmode n (md th).
Definition potential s : nat := sumw (wth (length (threads s))) (threads s) + 3 * length (data s).

Lemma sumw_wake n l : sumw (wth n) (wake <$> l) <= sumw (wth n) l + length l.
Proof.
  induction l as [|[p m] l IH]; [simpl; lia|]. rewrite fmap_cons. cbn [sumw length].
  assert (wth n (wake (Thread p m)) <= wth n (Thread p m) + 1) by (destruct m; unfold wth; simpl; lia). lia.
Qed.

Lemma step_potential cap s s' : step cap s s' -> potential s' < potential s.
Proof.
  intros H. pose proof (step_length cap s s' (any_regular _ _ _ H)) as HL. unfold potential. rewrite HL.
  set (n := length (threads s)) in *.
  destruct H as [i ? ? H|i j p q ? Hi Hj|i p ? Hi Hn|i p ? Hi].
  - apply critical_inv in H as (o & p & Hi & H).
    destruct H as [(t & -> & Hfull & ->)|[(t & -> & Hfree & ->)|[(-> & ->)|[(Hc & Hd & Hcl & ->)|[(Hc & Hd & Hcl & ->)|(x & r & Hc & Hd & ->)]]]]];
      simpl; rewrite ?app_length; simpl.
    + pose proof (sumw_insert (wth n) _ _ _ (Thread (Enq t :: p) Wait) Hi) as E. unfold wth at 2 4 in E. simpl in E. lia.
    + pose proof (sumw_insert (wth n) _ _ _ (Thread p NotifyOne) Hi) as E. unfold wth at 2 4 in E. simpl in E. lia.
    + pose proof (sumw_insert (wth n) _ _ _ (Thread p NotifyAll) Hi) as E. unfold wth at 2 4 in E. simpl in E. lia.
    + pose proof (sumw_insert (wth n) _ _ _ (Thread p Run) Hi) as E. unfold wth at 2 4 in E. simpl in E.
      destruct o; simpl in *; try contradiction; lia.
    + pose proof (sumw_insert (wth n) _ _ _ (Thread (o :: p) Wait) Hi) as E. unfold wth at 2 4 in E. simpl in E. rewrite Hd. simpl. lia.
    + rewrite Hd. simpl.
      pose proof (sumw_insert (wth n) _ _ _ (Thread (match o with DeqLoop => DeqLoop :: p | _ => p end) NotifyOne) Hi) as E.
      unfold wth at 2 4 in E. destruct o; simpl in *; try contradiction; lia.
  - simpl. pose proof (sumw_insert (wth n) _ _ _ (Thread p Run) Hi) as E. unfold wth at 2 4 in E. simpl in E.
    assert (Hj' : <[i := Thread p Run]> (threads s) !! j = Some (Thread q Wait)).
    { destruct (decide (i = j)) as [->|Hne]; [congruence|]. rewrite list_lookup_insert_ne; done. }
    pose proof (sumw_insert (wth n) _ _ _ (Thread q Run) Hj') as E'. unfold wth at 2 4 in E'. simpl in E'. lia.
  - simpl. pose proof (sumw_insert (wth n) _ _ _ (Thread p Run) Hi) as E. unfold wth at 2 4 in E. simpl in E. lia.
  - simpl. pose proof (sumw_insert (wth n) _ _ _ (Thread p Run) Hi) as E. unfold wth at 2 4 in E. simpl in E.
    pose proof (sumw_wake n (<[i := Thread p Run]> (threads s))) as W. rewrite insert_length in W. fold n in W. lia.
Qed.

Lemma exec_bound cap n k s s' : exec cap n k s s' -> n <= potential s + k.
Proof.
  induction 1 as [s|n k s1 s2 s3 H _ IH|n k j q s1 s3 Hj _ IH]; [lia| |].
  - apply step_potential in H. lia.
  - unfold potential in *. simpl in *. rewrite insert_length in IH.
    pose proof (sumw_insert (wth (length (threads s1))) _ _ _ (Thread q Run) Hj) as E. unfold wth at 2 4 in E. simpl in E. lia.
Qed.

Lemma exec_reachable cap progs n k s s' : exec cap n k s s' -> reachable cap progs s -> reachable cap progs s'.
Proof.
  induction 1 as [s|n k s1 s2 s3 H _ IH|n k j q s1 s3 Hj _ IH]; intros R; auto; apply IH; eapply reach_step; eauto.
  - by apply any_regular.
  - by apply any_spurious.
Qed.

(** *** No deadlock with enough capacity *)
Record linv (progs : list (list (op T))) s : Prop := {
  li_role : Forall (fun th => role (prog th)) (threads s);
  li_wait : forall i p, threads s !! i = Some (Thread p Wait) -> exists o p', p = o :: p' /\ consumer_op o;
  li_count : sumw (fun th => length (enqs (prog th))) (threads s) + length (entered (trace s)) = total_tasks progs;
  li_close : closed s = true -> forall i p, threads s !! i = Some (Thread p Wait) ->
               exists j q, threads s !! j = Some (Thread q NotifyAll);
  li_willclose : closed s = true \/ exists j th, threads s !! j = Some th /\ Close ∈ prog th
}.

Lemma role_tail o p : role (o :: p) -> role p.
Proof. intros [H|H]; inversion H; [left|right]; assumption. Qed.

Lemma total_tasks_sum progs : total_tasks progs = sumw (fun p => length (enqs p)) progs.
Proof. unfold total_tasks. induction progs as [|p r IH]; [done|]. rewrite fmap_cons. cbn [concat sumw]. by rewrite app_length, IH. Qed.

Lemma linv_init cap progs : Forall role progs -> (exists p, p ∈ progs /\ Close ∈ p) -> total_tasks progs <= cap ->
  linv progs (init progs).
Proof.
  intros HR (p & Hp & Hc) _. split; simpl.
  - apply Forall_fmap. eapply Forall_impl; [exact HR|]. auto.
  - intros i q H. rewrite list_lookup_fmap in H. destruct (progs !! i); simpl in H; congruence.
  - rewrite total_tasks_sum, sumw_fmap. simpl. lia.
  - discriminate.
  - right. apply elem_of_list_lookup in Hp as [j Hj]. exists j, (Thread p Run). rewrite list_lookup_fmap, Hj. auto.
Qed.

Lemma enqs_cons o p : length (@enqs T (o :: p)) = length (enqs p) + match o with Enq _ => 1 | _ => 0 end.
Proof. destruct o; simpl; lia. Qed.

Lemma data_le_entered cap progs s : inv cap progs s -> length (data s) <= length (entered (trace s)).
Proof. intros I. rewrite (inv_fifo _ _ _ I), app_length. lia. Qed.

Ltac lk H := first [rewrite list_lookup_insert in H by (eapply lookup_lt_Some; eassumption) | rewrite list_lookup_insert_ne in H by done].

Lemma linv_step cap progs s s' : total_tasks progs <= cap -> inv cap progs s -> linv progs s -> any_step cap s s' -> linv progs s'.
Proof.
  intros Hcap I [R W N C WC] H.
  revert I R W N C WC. destruct H as [? ? [i s s' H|i j p q s Hi Hj|i p s Hi Hn|i p s Hi]|j q s Hj]; intros I R W N C WC.
  - apply critical_inv in H as (o & p & Hi & H).
    pose proof (Forall_lookup_1 _ _ _ _ R Hi) as Ro. simpl in Ro. pose proof (role_tail _ _ Ro) as Rp.
    pose proof (fun y => sumw_insert (fun th => length (@enqs T (prog th))) _ _ _ y Hi) as SI.
    destruct H as [(t & -> & Hfull & ->)|[(t & -> & Hfree & ->)|[(-> & ->)|[(Hc & Hd & Hcl & ->)|[(Hc & Hd & Hcl & ->)|(x & r & Hc & Hd & ->)]]]]].
    + exfalso. pose proof (sumw_lookup (fun th => length (enqs (prog th))) _ _ _ Hi) as SL. simpl in SL.
      pose proof (data_le_entered _ _ _ I). lia.
    + split; simpl.
      * apply Forall_insert; auto.
      * intros k p' Hk. destruct (decide (k = i)) as [->|Hne]; lk Hk; [discriminate|eauto].
      * specialize (SI (Thread p NotifyOne)). simpl in SI. rewrite entered_app, app_length. simpl. lia.
      * intros Hcl k p' Hk. destruct (decide (k = i)) as [->|Hne]; lk Hk; [discriminate|].
        destruct (C Hcl _ _ Hk) as (j & q & Hj). exists j, q. rewrite list_lookup_insert_ne; [done|]. intros ->. congruence.
      * destruct WC as [?|(j & th & Hj & Hin)]; [by left|right]. destruct (decide (j = i)) as [->|Hne].
        -- exists i, (Thread p NotifyOne). rewrite list_lookup_insert by (eapply lookup_lt_Some; eassumption). split; [done|].
           rewrite Hi in Hj. injection Hj as <-. simpl in *. apply elem_of_cons in Hin as [?|?]; [discriminate|done].
        -- exists j, th. rewrite list_lookup_insert_ne; done.
    + split; simpl.
      * apply Forall_insert; auto.
      * intros k p' Hk. destruct (decide (k = i)) as [->|Hne]; lk Hk; [discriminate|eauto].
      * specialize (SI (Thread p NotifyAll)). simpl in SI. rewrite entered_app, app_length. simpl. lia.
      * intros Hcl k p' Hk. exists i, p. apply list_lookup_insert. eapply lookup_lt_Some; eassumption.
      * by left.
    + split; simpl.
      * apply Forall_insert; auto.
      * intros k p' Hk. destruct (decide (k = i)) as [->|Hne]; lk Hk; [discriminate|eauto].
      * specialize (SI (Thread p Run)). cbn [prog] in SI. rewrite enqs_cons in SI. rewrite entered_app, app_length. simpl.
        destruct o; simpl in Hc; try contradiction; lia.
      * intros _ k p' Hk. destruct (decide (k = i)) as [->|Hne]; lk Hk; [discriminate|].
        destruct (C Hcl _ _ Hk) as (j & q & Hj). exists j, q. rewrite list_lookup_insert_ne; [done|]. intros ->. congruence.
      * by left.
    + split; simpl.
      * apply Forall_insert; auto.
      * intros k p' Hk. destruct (decide (k = i)) as [->|Hne]; lk Hk; [injection Hk as <-; eauto|eauto].
      * specialize (SI (Thread (o :: p) Wait)). cbn [prog] in SI. lia.
      * discriminate.
      * destruct WC as [?|(j & th & Hj & Hin)]; [congruence|right]. destruct (decide (j = i)) as [->|Hne].
        -- exists i, (Thread (o :: p) Wait). rewrite list_lookup_insert by (eapply lookup_lt_Some; eassumption). split; [done|].
           rewrite Hi in Hj. injection Hj as <-. done.
        -- exists j, th. rewrite list_lookup_insert_ne; done.
    + split; simpl.
      * apply Forall_insert; auto. destruct o; simpl in *; auto; contradiction.
      * intros k p' Hk. destruct (decide (k = i)) as [->|Hne]; lk Hk; [discriminate|eauto].
      * specialize (SI (Thread (match o with DeqLoop => DeqLoop :: p | _ => p end) NotifyOne)). cbn [prog] in SI.
        rewrite entered_app, app_length. simpl. destruct o; simpl in Hc; try contradiction; simpl in SI; lia.
      * intros Hcl k p' Hk. destruct (decide (k = i)) as [->|Hne]; lk Hk; [discriminate|].
        destruct (C Hcl _ _ Hk) as (j & q & Hj). exists j, q. rewrite list_lookup_insert_ne; [done|]. intros ->. congruence.
      * destruct WC as [?|(j & th & Hj & Hin)]; [by left|right]. destruct (decide (j = i)) as [->|Hne].
        -- eexists i, _. rewrite list_lookup_insert by (eapply lookup_lt_Some; eassumption). split; [done|].
           rewrite Hi in Hj. injection Hj as <-. simpl in *. apply elem_of_cons in Hin as [<-|?]; [contradiction|].
           destruct o; simpl in *; auto; set_solver.
        -- exists j, th. rewrite list_lookup_insert_ne; done.
  - assert (Hne : i <> j) by congruence.
    assert (Hj' : <[i := Thread p Run]> (threads s) !! j = Some (Thread q Wait)) by (rewrite list_lookup_insert_ne; done).
    pose proof (sumw_insert (fun th => length (@enqs T (prog th))) _ _ _ (Thread p Run) Hi) as S1.
    pose proof (sumw_insert (fun th => length (@enqs T (prog th))) _ _ _ (Thread q Run) Hj') as S2. simpl in S1, S2.
    split; simpl.
    + apply Forall_insert; [apply Forall_insert|]; auto.
      * exact (Forall_lookup_1 _ _ _ _ R Hi).
      * exact (Forall_lookup_1 _ _ _ _ R Hj).
    + intros k p' Hk. destruct (decide (k = j)) as [->|Hk1].
      { rewrite list_lookup_insert in Hk; [discriminate|]. eapply lookup_lt_Some; exact Hj'. }
      lk Hk. destruct (decide (k = i)) as [->|Hk2]; lk Hk; [discriminate|eauto].
    + lia.
    + intros Hcl k p' Hk. destruct (decide (k = j)) as [->|Hk1].
      { rewrite list_lookup_insert in Hk; [discriminate|]. eapply lookup_lt_Some; exact Hj'. }
      lk Hk. destruct (decide (k = i)) as [->|Hk2]; lk Hk; [discriminate|].
      destruct (C Hcl _ _ Hk) as (k' & q' & Hk'). exists k', q'. rewrite !list_lookup_insert_ne; [done|congruence..].
    + destruct WC as [?|(k & th & Hk & Hin)]; [by left|right]. destruct (decide (k = j)) as [->|Hk1].
      * exists j, (Thread q Run). rewrite list_lookup_insert by (eapply lookup_lt_Some; exact Hj'). split; [done|].
        rewrite Hj in Hk. injection Hk as <-. done.
      * destruct (decide (k = i)) as [->|Hk2].
        -- exists i, (Thread p Run). rewrite list_lookup_insert_ne by done. rewrite list_lookup_insert by (eapply lookup_lt_Some; exact Hi).
           split; [done|]. rewrite Hi in Hk. injection Hk as <-. done.
        -- exists k, th. rewrite !list_lookup_insert_ne; done.
  - pose proof (sumw_insert (fun th => length (@enqs T (prog th))) _ _ _ (Thread p Run) Hi) as S1. simpl in S1.
    split; simpl.
    + apply Forall_insert; auto. exact (Forall_lookup_1 _ _ _ _ R Hi).
    + intros k p' Hk. destruct (decide (k = i)) as [->|Hk2]; lk Hk; [discriminate|eauto].
    + lia.
    + intros Hcl k p' Hk. destruct (decide (k = i)) as [->|Hk2]; lk Hk; [discriminate|]. exfalso. eapply Hn; exact Hk.
    + destruct WC as [?|(k & th & Hk & Hin)]; [by left|right]. destruct (decide (k = i)) as [->|Hk2].
      * exists i, (Thread p Run). rewrite list_lookup_insert by (eapply lookup_lt_Some; exact Hi).
        split; [done|]. rewrite Hi in Hk. injection Hk as <-. done.
      * exists k, th. rewrite !list_lookup_insert_ne; done.
  - pose proof (sumw_insert (fun th => length (@enqs T (prog th))) _ _ _ (Thread p Run) Hi) as S1. simpl in S1.
    assert (NW : forall k p', (wake <$> <[i:=Thread p Run]> (threads s)) !! k <> Some (Thread p' Wait)).
    { intros k p' Hk. rewrite list_lookup_fmap in Hk. destruct (<[i:=Thread p Run]> (threads s) !! k) as [[? []]|]; simpl in Hk; discriminate. }
    split; simpl.
    + apply Forall_fmap. eapply Forall_impl; [apply Forall_insert; [exact R|]; exact (Forall_lookup_1 _ _ _ _ R Hi)|].
      intros [? []]; auto.
    + intros k p' Hk. exfalso. eapply NW; exact Hk.
    + rewrite sumw_fmap.
      enough (E : sumw (λ x : thread T, length (enqs (prog (wake x)))) (<[i:=Thread p Run]> (threads s)) =
             sumw (λ x : thread T, length (enqs (prog x))) (<[i:=Thread p Run]> (threads s))) by lia.
      generalize (<[i:=Thread p Run]> (threads s)). intros l. induction l as [|[? []] l IH]; simpl; auto.
    + intros _ k p' Hk. exfalso. eapply NW; exact Hk.
    + destruct WC as [?|(k & th & Hk & Hin)]; [by left|right]. destruct (decide (k = i)) as [->|Hk2].
      * exists i, (Thread p Run). rewrite list_lookup_fmap, list_lookup_insert by (eapply lookup_lt_Some; exact Hi).
        split; [done|]. rewrite Hi in Hk. injection Hk as <-. done.
      * exists k, (wake th). rewrite list_lookup_fmap, list_lookup_insert_ne, Hk by done. split; [done|]. by destruct th as [? []].
  - pose proof (sumw_insert (fun th => length (@enqs T (prog th))) _ _ _ (Thread q Run) Hj) as S1. simpl in S1.
    split; simpl.
    + apply Forall_insert; auto. exact (Forall_lookup_1 _ _ _ _ R Hj).
    + intros k p' Hk. destruct (decide (k = j)) as [->|Hk2]; lk Hk; [discriminate|eauto].
    + lia.
    + intros Hcl k p' Hk. destruct (decide (k = j)) as [->|Hk2]; lk Hk; [discriminate|].
      destruct (C Hcl _ _ Hk) as (k' & q' & Hk'). exists k', q'. rewrite !list_lookup_insert_ne; [done|congruence..].
    + destruct WC as [?|(k & th & Hk & Hin)]; [by left|right]. destruct (decide (k = j)) as [->|Hk2].
      * exists j, (Thread q Run). rewrite list_lookup_insert by (eapply lookup_lt_Some; exact Hj).
        split; [done|]. rewrite Hj in Hk. injection Hk as <-. done.
      * exists k, th. rewrite !list_lookup_insert_ne; done.
Qed.

Lemma linv_reachable cap progs s : Forall role progs -> (exists p, p ∈ progs /\ Close ∈ p) -> total_tasks progs <= cap ->
  reachable cap progs s -> linv progs s.
Proof.
  intros HR HC HT. induction 1 as [|s s' H IH HS]; [eapply linv_init; eauto|].
  eapply linv_step; eauto. eapply inv_reachable; eauto.
Qed.

Global Instance mode_eq_dec : EqDecision mode.
Proof. solve_decision. Defined.

(** A thread that is neither finished nor asleep can move. *)
Lemma can_move cap s i p m : threads s !! i = Some (Thread p m) -> m <> Wait -> ~ finished_thread (Thread p m) ->
  exists s', step cap s s'.
Proof.
  intros Hi Hm Hf. destruct m.
  - destruct p as [|o p]; [exfalso; apply Hf; done|].
    assert (exists s', critical cap i s = Some s') as [s' Hs'].
    { unfold critical. rewrite Hi. destruct o; [case_decide| |destruct (data s); [destruct (closed s)|]|destruct (data s); [destruct (closed s)|]]; eauto. }
    exists s'. eapply step_critical; exact Hs'.
  - done.
  - destruct (decide (Exists (fun th => md th = Wait) (threads s))) as [E|E].
    + apply Exists_exists in E as ([q m] & Hin & Hw). simpl in Hw. subst m. apply elem_of_list_lookup in Hin as [j Hj].
      eexists. eapply step_notify_one; eassumption.
    + eexists. eapply step_notify_nobody; [exact Hi|]. intros j q Hj. apply E. apply Exists_exists. exists (Thread q Wait).
      split; [|done]. apply elem_of_list_lookup. eauto.
  - eexists. eapply step_notify_all; exact Hi.
Qed.

Lemma no_deadlock cap progs s : Forall role progs -> (exists p, p ∈ progs /\ Close ∈ p) -> total_tasks progs <= cap ->
  reachable cap progs s -> ~ deadlock cap s.
Proof.
  intros HR HC HT HS [Hf Hst]. pose proof (linv_reachable _ _ _ HR HC HT HS) as [R W N C WC].
  assert (K : forall i p m, threads s !! i = Some (Thread p m) -> m = Wait \/ finished_thread (Thread p m)).
  { intros i p m Hi. destruct (decide (m = Wait)); [by left|]. right.
    destruct p as [|o p], m; try (by split); exfalso;
      (destruct (can_move cap s i _ _ Hi) as [s' Hs']; [done|intros [? ?]; simpl in *; congruence|eapply Hst; exact Hs']). }
  assert (Hcl : closed s = true).
  { destruct WC as [?|(j & [p m] & Hj & Hin)]; [done|]. exfalso. destruct (K _ _ _ Hj) as [->|[E _]]; simpl in *.
    - destruct (W _ _ Hj) as (o & p' & -> & Ho). pose proof (Forall_lookup_1 _ _ _ _ R Hj) as [Hr|Hr]; simpl in Hr.
      + inversion Hr; subst. destruct o; simpl in *; contradiction.
      + rewrite Forall_forall in Hr. apply Hr in Hin. done.
    - subst p. by apply elem_of_nil in Hin. }
  apply Hf. apply Forall_lookup_2. intros i [p m] Hi. destruct (K _ _ _ Hi) as [->|?]; [|done]. exfalso.
  destruct (C Hcl _ _ Hi) as (j & q & Hj). destruct (K _ _ _ Hj) as [?|[? ?]]; discriminate.
Qed.

(** *** Every consumer loop that ends has received the end marker *)
Lemma eof_received cap progs s i p th : reachable cap progs s -> progs !! i = Some p -> DeqLoop ∈ p ->
  threads s !! i = Some th -> DeqLoop ∈ prog th \/ EvEof i ∈ trace s.
Proof.
  intros HR Hp Hin. revert th. induction HR as [|s s' HR IH HS]; intros th Hi.
  - simpl in Hi. rewrite list_lookup_fmap, Hp in Hi. injection Hi as <-. by left.
  - apply any_step_inv in HS as [(j & H)|(Hd & Hc & Ht & HP)].
    + apply critical_inv in H as (o & q & Hj & H).
      assert (forall th', <[j := th']> (threads s) !! i = Some th ->
                (i = j /\ th = th') \/ threads s !! i = Some th) as L.
      { intros th' L. destruct (decide (i = j)) as [->|Hne]; [left|right]; lk L; [injection L as <-|]; done. }
      destruct H as [(t & -> & Hfull & ->)|[(t & -> & Hfree & ->)|[(-> & ->)|[(Hc & Hd & Hcl & ->)|[(Hc & Hd & Hcl & ->)|(x & r & Hc & Hd & ->)]]]]];
        simpl in *; apply L in Hi as [[-> ->]|Hi]; try (apply IH in Hi; set_solver); apply IH in Hj; simpl in *; try set_solver.
      destruct o; simpl in *; try contradiction; set_solver.
    + rewrite Ht. apply (f_equal (.!! i)) in HP. rewrite !list_lookup_fmap, Hi in HP.
      destruct (threads s !! i) as [th'|] eqn:E; simpl in HP; [|discriminate]. injection HP as <-. eauto.
Qed.

(** *** The engine: everything enqueued is delivered *)
Definition after_close s : Prop :=
  (closed s = true -> Forall (fun th => enqs (prog th) = []) (threads s)) /\
  (forall i, EvEof i ∈ trace s -> data s = [] /\ closed s = true).

Lemma engine_shape cap tasks n s : reachable cap (engine tasks n) s ->
  (closed s = false /\ exists m rest, threads s !! 0 = Some (Thread ((Enq <$> rest) ++ [Close]) m) /\
       forall j th, threads s !! S j = Some th -> enqs (prog th) = [] /\ Close ∉ prog th) \/
  (closed s = true /\ Forall (fun th => enqs (prog th) = [] /\ Close ∉ prog th) (threads s)).
Proof.
  induction 1 as [|s s' HR IH HS].
  - left. split; [done|]. exists Run, tasks. split; [done|]. intros j th Hj. simpl in Hj. rewrite fmap_replicate in Hj.
    apply lookup_replicate in Hj as [-> _]. simpl. set_solver.
  - apply any_step_inv in HS as [(i & H)|(Hd & Hc & Ht & HP)].
    + apply critical_inv in H as (o & p & Hi & H).
      destruct IH as [(Hcl & m & rest & H0 & HS)|(Hcl & HF)].
      * destruct i as [|i].
        -- rewrite H0 in Hi. injection Hi as Hp ->.
           assert (S0 : forall th' j th, <[0 := th']> (threads s) !! S j = Some th -> enqs (prog th) = [] /\ Close ∉ prog th).
           { intros th' j th Hj. rewrite list_lookup_insert_ne in Hj by done. eauto. }
           destruct rest as [|t rest]; simpl in Hp; injection Hp as <- <-.
           ++ destruct H as [(t & ? & _)|[(t & ? & _)|[(_ & ->)|[([] & _)|[([] & _)|(x & r & [] & _)]]]]]; try discriminate.
              right. split; [done|]. simpl. apply Forall_lookup_2. intros [|j] th Hj.
              ** rewrite list_lookup_insert in Hj by (eapply lookup_lt_Some; exact H0). injection Hj as <-. simpl. set_solver.
              ** rewrite list_lookup_insert_ne in Hj by done. eauto.
           ++ left. destruct H as [(t' & ? & _ & ->)|[(t' & ? & _ & ->)|[(? & ->)|[([] & _)|[([] & _)|(x & r & [] & _)]]]]]; try discriminate.
              ** split; [done|]. exists Wait, (t :: rest). split; [|eauto]. simpl. rewrite list_lookup_insert; [done|]. eapply lookup_lt_Some; exact H0.
              ** split; [done|]. exists NotifyOne, rest. split; [|eauto]. simpl. rewrite list_lookup_insert; [done|]. eapply lookup_lt_Some; exact H0.
        -- destruct (HS _ _ Hi) as [He Hcn]. simpl in He, Hcn.
           assert (S0 : forall th', enqs (prog th') = [] /\ Close ∉ prog th' ->
              forall j th, <[S i := th']> (threads s) !! S j = Some th -> enqs (prog th) = [] /\ Close ∉ prog th).
           { intros th' Hth' j th Hj. destruct (decide (S j = S i)) as [Ej|Hne]; [injection Ej as ->|]; lk Hj; [injection Hj as <-; done|eauto]. }
           left. destruct H as [(t' & -> & _)|[(t' & -> & _)|[(-> & ->)|[(Hc & Hd & Hcl' & ->)|[(Hc & Hd & Hcl' & ->)|(x & r & Hc & Hd & ->)]]]]];
             try discriminate; try (exfalso; set_solver); try congruence.
           ++ split; [done|]. exists m, rest. simpl. split; [by rewrite list_lookup_insert_ne|]. apply S0. simpl. done.
           ++ split; [done|]. exists m, rest. simpl. split; [by rewrite list_lookup_insert_ne|]. apply S0. simpl.
              destruct o; simpl in *; try contradiction; set_solver.
      * right. pose proof (Forall_lookup_1 _ _ _ _ HF Hi) as [He Hcn]. simpl in He, Hcn.
        destruct H as [(t' & -> & _)|[(t' & -> & _)|[(-> & ->)|[(Hc & Hd & Hcl' & ->)|[(Hc & Hd & Hcl' & ->)|(x & r & Hc & Hd & ->)]]]]];
             try discriminate; try congruence.
        -- split; [done|]. apply Forall_insert; [done|]. simpl. set_solver.
        -- split; [done|]. apply Forall_insert; [done|]. simpl. destruct o; simpl in *; try contradiction; set_solver.
        -- split; [done|]. apply Forall_insert; [done|]. simpl. destruct o; simpl in *; try contradiction; set_solver.
    + assert (P : forall j th, threads s' !! j = Some th -> exists th', threads s !! j = Some th' /\ prog th' = prog th).
      { intros j th Hj. apply (f_equal (.!! j)) in HP. rewrite !list_lookup_fmap, Hj in HP.
        destruct (threads s !! j) as [th'|]; simpl in HP; [|discriminate]. injection HP as HP. eauto. }
      assert (P' : forall j th, threads s !! j = Some th -> exists th', threads s' !! j = Some th' /\ prog th' = prog th).
      { intros j th Hj. apply (f_equal (.!! j)) in HP. rewrite !list_lookup_fmap, Hj in HP.
        destruct (threads s' !! j) as [th'|]; simpl in HP; [|discriminate]. injection HP as HP. eauto. }
      rewrite Hc. destruct IH as [(Hcl & m & rest & H0 & HS)|(Hcl & HF)]; [left|right]; (split; [done|]).
      * destruct (P' _ _ H0) as ([p' m'] & H0' & Ep). simpl in Ep. subst p'. exists m', rest. split; [done|].
        intros j th Hj. destruct (P _ _ Hj) as (th' & Hj' & <-). eauto.
      * apply Forall_lookup_2. intros j th Hj. destruct (P _ _ Hj) as (th' & Hj' & <-). exact (Forall_lookup_1 _ _ _ _ HF Hj').
Qed.

Lemma engine_eof cap tasks n s : reachable cap (engine tasks n) s -> forall i, EvEof i ∈ trace s -> data s = [] /\ closed s = true.
Proof.
  induction 1 as [|s s' HR IH HS]; intros j Hj; [by apply elem_of_nil in Hj|].
  pose proof (engine_shape _ _ _ _ HR) as SH.
  apply any_step_inv in HS as [(i & H)|(Hd & Hc & Ht & HP)]; [|rewrite Hd, Hc; rewrite Ht in Hj; eauto].
  apply critical_inv in H as (o & p & Hi & H).
  destruct H as [(t & -> & Hfull & ->)|[(t & -> & Hfree & ->)|[(-> & ->)|[(Hc & Hd & Hcl & ->)|[(Hc & Hd & Hcl & ->)|(x & r & Hc & Hd & ->)]]]]]; simpl in *; eauto.
  - exfalso. apply elem_of_app in Hj as [Hj|Hj]; [|set_solver]. destruct (IH _ Hj) as [Hd Hcl].
    destruct SH as [[? _]|[_ HF]]; [congruence|]. pose proof (Forall_lookup_1 _ _ _ _ HF Hi) as [? _]. discriminate.
  - apply elem_of_app in Hj as [Hj|Hj]; [|set_solver]. destruct (IH _ Hj) as [Hd Hcl]. done.
  - exfalso. destruct (IH _ Hj) as [_ ?]. congruence.
  - exfalso. apply elem_of_app in Hj as [Hj|Hj]; [|set_solver]. destruct (IH _ Hj) as [? _]. congruence.
Qed.

Lemma enqs_enq (ts : list T) : enqs ((Enq <$> ts) ++ [Close]) = ts.
Proof. induction ts; simpl; [done|]. f_equal. exact IHts. Qed.

Lemma engine_entered cap tasks n s : reachable cap (engine tasks n) s -> entered (trace s) = entered_by 0 (trace s).
Proof.
  intros HR. assert (G : forall i, i <> 0 -> entered_by i (trace s) = []).
  { intros i Hi0. pose proof (inv_reachable _ _ _ HR) as I.
    destruct (engine tasks n !! i) as [p|] eqn:Hp.
    - assert (exists th, threads s !! i = Some th) as [th Hth].
      { apply lookup_lt_is_Some. rewrite (inv_len _ _ _ I). eapply lookup_lt_Some; exact Hp. }
      pose proof (inv_prog _ _ _ I _ _ _ Hth Hp) as E. unfold engine in Hp. destruct i as [|i]; [done|]. simpl in Hp.
      apply lookup_replicate in Hp as [-> _]. simpl in E. by apply app_eq_nil in E as [-> _].
    - clear I. assert (G : forall j t, EvEnq j t ∈ trace s -> j < length (threads s)).
      { clear -HR. induction HR as [|s s' HR IH HS]; intros j t Hj; [by apply elem_of_nil in Hj|].
        rewrite (step_length _ _ _ HS). apply any_step_inv in HS as [(i & H)|(Hd & Hc & Ht & HP)]; [|rewrite Ht in Hj; eauto].
        apply critical_inv in H as (o & p & Hi & H). apply lookup_lt_Some in Hi.
        destruct H as [(t' & -> & Hfull & ->)|[(t' & -> & Hfree & ->)|[(-> & ->)|[(Hc & Hd & Hcl & ->)|[(Hc & Hd & Hcl & ->)|(x & r & Hc & Hd & ->)]]]]]; simpl in *;
          try (apply elem_of_app in Hj as [Hj|Hj]; [|apply elem_of_list_singleton in Hj; try discriminate]); eauto.
        injection Hj as -> _. done. }
      rewrite (inv_len _ _ _ (inv_reachable _ _ _ HR)) in G. apply lookup_ge_None in Hp.
      revert G. generalize (trace s). intros tr G. induction tr as [|e tr IH]; [done|]. unfold entered_by. simpl.
      destruct e; simpl; try (apply IH; intros; eapply G; right; eassumption).
      case_decide as D; [|apply IH; intros; eapply G; right; eassumption]. subst. exfalso. specialize (G i0 t). feed pose proof G; [left|lia]. }
  revert G. generalize (trace s). intros tr G. induction tr as [|e tr IH]; [done|].
  assert (G' : forall i, i <> 0 -> entered_by i tr = []).
  { intros i Hi. specialize (G i Hi). unfold entered_by in *. simpl in G. destruct e; auto. case_decide; [discriminate|done]. }
  specialize (IH G'). destruct e as [i t| | |]; auto.
  destruct (decide (0 = i)) as [<-|Hne]; [exact (f_equal (cons t) IH)|]. exfalso. unfold entered_by in G. specialize (G i (not_eq_sym Hne)). simpl in G. rewrite decide_True in G by done. discriminate.
Qed.

Lemma engine_delivers cap tasks n s : reachable cap (engine tasks n) s -> 0 < n -> finished s -> left_ (trace s) = tasks.
Proof.
  intros HR Hn HF. pose proof (inv_reachable _ _ _ HR) as I.
  assert (Hlen : length (threads s) = S n) by (rewrite (inv_len _ _ _ I); unfold engine; simpl; by rewrite replicate_length).
  assert (exists th, threads s !! 1 = Some th) as [th Hth] by (apply lookup_lt_is_Some; lia).
  assert (exists th0, threads s !! 0 = Some th0) as [th0 Hth0] by (apply lookup_lt_is_Some; lia).
  assert (Hp : engine tasks n !! 1 = Some [DeqLoop]) by (unfold engine; destruct n; [lia|done]).
  pose proof (Forall_lookup_1 _ _ _ _ HF Hth) as [E1 _]. pose proof (Forall_lookup_1 _ _ _ _ HF Hth0) as [E0 _].
  destruct (eof_received _ _ _ _ _ _ HR Hp ltac:(set_solver) Hth) as [Hin|Hin].
  { rewrite E1 in Hin. by apply elem_of_nil in Hin. }
  destruct (engine_eof _ _ _ _ HR _ Hin) as [Hd _].
  pose proof (inv_fifo _ _ _ I) as F. rewrite Hd, app_nil_r in F. rewrite <- F, (engine_entered _ _ _ _ HR).
  pose proof (inv_prog _ _ _ I 0 _ _ Hth0 eq_refl) as P. rewrite E0 in P. simpl in P. rewrite app_nil_r in P.
  rewrite P. apply enqs_enq.
Qed.

Lemma engine_roles tasks n : Forall role (engine tasks n) /\ (exists p, p ∈ engine tasks n /\ Close ∈ p) /\
  total_tasks (engine tasks n) = length tasks.
Proof.
  split_and!.
  - constructor.
    + left. apply Forall_app. split; [|by repeat constructor]. apply Forall_fmap, Forall_true. done.
    + apply Forall_replicate. right. by repeat constructor.
  - eexists. split; [left|]. set_solver.
  - rewrite total_tasks_sum. unfold engine. simpl. rewrite enqs_enq. induction n; simpl; lia.
Qed.

End Live.
