(** Invariants of the task queue. *)
From stdpp Require Import base list.
From Coq Require Import Lia.
From Verif Require Import TaskQueueModel TaskQueueSpec.

Section Proofs.
Context {T : Type}.
Implicit Types (s : state T) (p : list (op T)) (tr : list (event T)).

Lemma entered_app a b : @entered T (a ++ b) = entered a ++ entered b.
Proof. apply omap_app. Qed.
Lemma left_app a b : @left_ T (a ++ b) = left_ a ++ left_ b.
Proof. apply omap_app. Qed.
Lemma entered_by_app i a b : @entered_by T i (a ++ b) = entered_by i a ++ entered_by i b.
Proof. apply omap_app. Qed.

(** Case analysis of a critical section. *)
Lemma critical_inv cap i s s' : critical cap i s = Some s' ->
  exists o p, threads s !! i = Some (Thread (o :: p) Run) /\
  ((exists t, o = Enq t /\ cap < length (data s) + 1 /\
      s' = State (data s) (closed s) (<[i := Thread (o :: p) Wait]> (threads s)) (trace s)) \/
   (exists t, o = Enq t /\ length (data s) + 1 <= cap /\
      s' = State (data s ++ [t]) (closed s) (<[i := Thread p NotifyOne]> (threads s)) (trace s ++ [EvEnq i t])) \/
   (o = Close /\ s' = State (data s) true (<[i := Thread p NotifyAll]> (threads s)) (trace s ++ [EvClose i])) \/
   (consumer_op o /\ data s = [] /\ closed s = true /\
      s' = State [] true (<[i := Thread p Run]> (threads s)) (trace s ++ [EvEof i])) \/
   (consumer_op o /\ data s = [] /\ closed s = false /\
      s' = State [] false (<[i := Thread (o :: p) Wait]> (threads s)) (trace s)) \/
   (exists x r, consumer_op o /\ data s = x :: r /\
      s' = State r (closed s) (<[i := Thread (match o with DeqLoop => DeqLoop :: p | _ => p end) NotifyOne]> (threads s))
                 (trace s ++ [EvDeq i x]))).
Proof.
  unfold critical. destruct (threads s !! i) as [[[|o p] m]|] eqn:E; try discriminate; destruct o; destruct m; try discriminate;
    intros H; eexists _, _; (split; [reflexivity|]).
  - case_decide; injection H as <-; [left|right; left]; eexists; split_and!; eauto; lia.
  - injection H as <-. right; right; left. auto.
  - destruct (data s) as [|x r] eqn:D; [destruct (closed s) eqn:C|]; injection H as <-.
    + do 3 right; left. simpl. auto.
    + do 4 right; left. simpl. auto.
    + do 5 right. exists x, r. simpl. auto.
  - destruct (data s) as [|x r] eqn:D; [destruct (closed s) eqn:C|]; injection H as <-.
    + do 3 right; left. simpl. auto.
    + do 4 right; left. simpl. auto.
    + do 5 right. exists x, r. simpl. auto.
Qed.

(** A step is either a critical section or changes only the modes of threads. *)
Definition same_progs (l l' : list (thread T)) : Prop := prog <$> l = prog <$> l'.

Lemma same_progs_insert l i p m m' : l !! i = Some (Thread p m) -> same_progs l (<[i := Thread p m']> l).
Proof.
  intros H. unfold same_progs. rewrite list_fmap_insert. simpl. symmetry. apply list_insert_id.
  rewrite list_lookup_fmap, H. reflexivity.
Qed.

Lemma any_step_inv cap s s' : any_step cap s s' ->
  (exists i, critical cap i s = Some s') \/
  (data s' = data s /\ closed s' = closed s /\ trace s' = trace s /\ same_progs (threads s) (threads s')).
Proof.
  intros [? ? [i ? ? H|i j p q ? Hi Hj|i p ? Hi Hn|i p ? Hi]|j q ? Hj]; [left; eauto|right..]; simpl; split_and!; auto.
  - etransitivity; [eapply (same_progs_insert _ i); exact Hi|].
    destruct (decide (i = j)) as [->|Hne]; [congruence|].
    eapply same_progs_insert. rewrite list_lookup_insert_ne by done. exact Hj.
  - eapply same_progs_insert; exact Hi.
  - etransitivity; [eapply (same_progs_insert _ i); exact Hi|].
    unfold same_progs. rewrite <- list_fmap_compose. apply list_fmap_ext. intros k [q m] _; simpl. by destruct m.
  - eapply same_progs_insert; exact Hj.
Qed.

Lemma step_length cap s s' : any_step cap s s' -> length (threads s') = length (threads s).
Proof.
  intros [? ? [i ? ? H|i j p q ? Hi Hj|i p ? Hi Hn|i p ? Hi]|j q ? Hj]; simpl; rewrite ?fmap_length, ?insert_length; auto.
  apply critical_inv in H as (o & p & _ & [(?&?&?&->)|[(?&?&?&->)|[(?&->)|[(?&?&?&->)|[(?&?&?&->)|(?&?&?&?&->)]]]]]);
    simpl; apply insert_length.
Qed.

(** *** Basic invariant *)
Record inv (cap : nat) (progs : list (list (op T))) s : Prop := {
  inv_fifo : entered (trace s) = left_ (trace s) ++ data s;
  inv_cap : length (data s) <= cap;
  inv_closed : closed s = true <-> exists i, EvClose i ∈ trace s;
  inv_eof : forall pre post i, trace s = pre ++ EvEof i :: post ->
              (exists j, EvClose j ∈ pre) /\ entered pre = left_ pre;
  inv_capall : forall pre post, trace s = pre ++ post -> length (entered pre) <= length (left_ pre) + cap;
  inv_order : forall pre post, trace s = pre ++ post -> left_ pre `prefix_of` entered pre;
  inv_len : length (threads s) = length progs;
  inv_prog : forall i th p, threads s !! i = Some th -> progs !! i = Some p ->
              entered_by i (trace s) ++ enqs (prog th) = enqs p
}.

Lemma app_snoc_inv {A} (l pre post : list A) (x : A) : l ++ [x] = pre ++ post ->
  (post = [] /\ pre = l ++ [x]) \/ (exists post', post = post' ++ [x] /\ l = pre ++ post').
Proof.
  intros H. destruct post as [|y post] using rev_ind.
  - left. rewrite app_nil_r in H. auto.
  - right. rewrite app_assoc in H. apply app_inj_tail in H as [-> ->]. eauto.
Qed.

(** One new event. *)
Lemma inv_new cap progs s d' c' ths' e :
  inv cap progs s ->
  entered (trace s ++ [e]) = left_ (trace s ++ [e]) ++ d' ->
  length d' <= cap ->
  (c' = true <-> exists i, EvClose i ∈ trace s ++ [e]) ->
  (forall i, e = EvEof i -> closed s = true /\ data s = []) ->
  length ths' = length progs ->
  (forall i th p, ths' !! i = Some th -> progs !! i = Some p -> entered_by i (trace s ++ [e]) ++ enqs (prog th) = enqs p) ->
  inv cap progs (State d' c' ths' (trace s ++ [e])).
Proof.
  intros [F C CL E CA O L P] F' C' CL' E' L' P'. split; simpl; auto.
  - intros pre post i H. destruct (app_snoc_inv (trace s) (pre) (EvEof i :: post) e H) as [[? ?]|(post' & H1 & H2)]; [discriminate|].
    destruct post' as [|y post'].
    + simpl in H1. injection H1 as <- ->. rewrite app_nil_r in H2. subst pre.
      destruct (E' i eq_refl) as [Hc Hd]. split; [apply CL; exact Hc|]. rewrite F, Hd, app_nil_r. reflexivity.
    + simpl in H1. injection H1 as <- ->. eapply E. exact H2.
  - intros pre post H. apply app_snoc_inv in H as [[-> ->]|(post' & -> & H)].
    + rewrite F', app_length. lia.
    + eapply CA; exact H.
  - intros pre post H. apply app_snoc_inv in H as [[-> ->]|(post' & -> & H)].
    + rewrite F'. eexists; reflexivity.
    + eapply O; exact H.
Qed.

Lemma inv_same cap progs s d c ths :
  inv cap progs s -> d = data s -> c = closed s -> same_progs (threads s) ths ->
  inv cap progs (State d c ths (trace s)).
Proof.
  intros [F C CL E CA O L P] -> -> SP. split; simpl; auto.
  - rewrite <- L. apply (f_equal length) in SP. rewrite !fmap_length in SP. auto.
  - intros i th p Hi Hp. apply (f_equal (.!! i)) in SP. rewrite !list_lookup_fmap, Hi in SP. simpl in SP.
    destruct (threads s !! i) as [th'|] eqn:Hi'; simpl in SP; [|discriminate]. injection SP as <-. eapply P; eassumption.
Qed.

Lemma entered_by_other i j t : i <> j -> @entered_by T i [EvEnq j t] = [].
Proof. intros H. unfold entered_by. simpl. by rewrite decide_False. Qed.

Lemma inv_step cap progs s s' : inv cap progs s -> any_step cap s s' -> inv cap progs s'.
Proof.
  intros I H. pose proof (step_length _ _ _ H) as HL. apply any_step_inv in H as [(i & H)|(Hd & Hc & Ht & Hp)].
  2:{ destruct s' as [d' c' ths' t']; simpl in *. subst t'. apply inv_same; auto. }
  apply critical_inv in H as (o & p & Hi & H).
  pose proof I as [F C CL E CA O L P]. rewrite L in HL.
  destruct H as [(t & -> & Hfull & ->)|[(t & -> & Hfree & ->)|[(-> & ->)|[(Hc & Hd & Hcl & ->)|[(Hc & Hd & Hcl & ->)|(x & r & Hc & Hd & ->)]]]]].
  - apply inv_same; auto. eapply same_progs_insert; exact Hi.
  - apply inv_new; auto.
    + rewrite entered_app, left_app, F. simpl. by rewrite app_nil_r, app_assoc.
    + rewrite app_length. simpl. lia.
    + rewrite CL. split; intros [j Hj]; exists j; [apply elem_of_app; auto|].
      apply elem_of_app in Hj as [Hj|Hj]; [exact Hj|]. apply elem_of_list_singleton in Hj. discriminate.
    + discriminate.
    + intros k th q Hk Hq. rewrite entered_by_app. destruct (decide (k = i)) as [->|Hne].
      * rewrite list_lookup_insert in Hk by (eapply lookup_lt_Some; exact Hi). injection Hk as <-. simpl.
        rewrite <- (P i _ _ Hi Hq). unfold entered_by at 2. simpl. rewrite decide_True by done. by rewrite <- app_assoc.
      * rewrite list_lookup_insert_ne in Hk by done. rewrite entered_by_other by done. rewrite app_nil_r. eauto.
  - apply inv_new; auto.
    + rewrite entered_app, left_app, F. simpl. by rewrite !app_nil_r.
    + split; [|reflexivity]. intros _. exists i. apply elem_of_app. right. apply elem_of_list_singleton. reflexivity.
    + discriminate.
    + intros k th q Hk Hq. rewrite entered_by_app. simpl. rewrite app_nil_r.
      destruct (decide (k = i)) as [->|Hne].
      * rewrite list_lookup_insert in Hk by (eapply lookup_lt_Some; exact Hi). injection Hk as <-. simpl.
        rewrite <- (P i _ _ Hi Hq). reflexivity.
      * rewrite list_lookup_insert_ne in Hk by done. eauto.
  - apply inv_new; auto.
    + rewrite entered_app, left_app, F, Hd. simpl. by rewrite !app_nil_r.
    + simpl; lia.
    + split; [|reflexivity]. intros _. apply CL in Hcl as [j Hj]. exists j. apply elem_of_app; auto.
    + intros k th q Hk Hq. rewrite entered_by_app. simpl. rewrite app_nil_r.
      destruct (decide (k = i)) as [->|Hne].
      * rewrite list_lookup_insert in Hk by (eapply lookup_lt_Some; exact Hi). injection Hk as <-. simpl.
        rewrite <- (P i _ _ Hi Hq). destruct o; simpl in Hc; try contradiction; reflexivity.
      * rewrite list_lookup_insert_ne in Hk by done. eauto.
  - apply inv_same; auto. eapply same_progs_insert; exact Hi.
  - apply inv_new; auto.
    + rewrite entered_app, left_app, F, Hd. simpl. by rewrite app_nil_r, <- app_assoc.
    + rewrite Hd in C. simpl in C. lia.
    + rewrite CL. split; intros [j Hj]; exists j; [apply elem_of_app; auto|].
      apply elem_of_app in Hj as [Hj|Hj]; [exact Hj|]. apply elem_of_list_singleton in Hj. discriminate.
    + discriminate.
    + intros k th q Hk Hq. rewrite entered_by_app. simpl. rewrite app_nil_r.
      destruct (decide (k = i)) as [->|Hne].
      * rewrite list_lookup_insert in Hk by (eapply lookup_lt_Some; exact Hi). injection Hk as <-.
        rewrite <- (P i _ _ Hi Hq). destruct o; simpl in Hc; try contradiction; reflexivity.
      * rewrite list_lookup_insert_ne in Hk by done. eauto.
Qed.

Lemma inv_init cap progs : inv cap progs (init progs).
Proof.
  split; simpl; auto.
  - lia.
  - split; [discriminate|]. intros [i Hi]. by apply elem_of_nil in Hi.
  - intros [|? ?] post i H; discriminate.
  - intros [|? ?] post H; [simpl; lia|discriminate].
  - intros [|? ?] post H; [reflexivity|discriminate].
  - apply fmap_length.
  - intros i th p Hi Hp. rewrite list_lookup_fmap, Hp in Hi. simpl in Hi. injection Hi as <-. reflexivity.
Qed.

Lemma inv_reachable cap progs s : reachable cap progs s -> inv cap progs s.
Proof. induction 1; [apply inv_init|eapply inv_step; eassumption]. Qed.

End Proofs.
