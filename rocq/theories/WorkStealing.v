(** Property theorems C06 (and C38) about work stealing. *)
From stdpp Require Import base list sets.
From Coq Require Import Lia.
From Verif Require Import ListUtil WorkStealingModel WorkStealingProofs.

(** ** C06. [n] queues, any number of workers with any starting queue, domains and policies, any producer program that
    does not enqueue after closing; any schedule and any random numbers. *)

(** No worker stops while a queue holds a task or may still get one. *)
Theorem C06_stop_only_when_drained : forall (T : Type) n cfgs (p0 : list (pop T)) s i w,
  well_formed n p0 -> Forall (fun c => own c < n) cfgs -> reachable n cfgs p0 s ->
  workers s !! i = Some w -> wpc w = PStop -> drained s.
Proof. intros. eapply stopped_drained; eauto. Qed.
Print Assumptions C06_stop_only_when_drained.

(** When all workers have stopped, every task has been executed exactly once. *)
Theorem C06_exactly_once : forall (T : Type) n cfgs (p0 : list (pop T)) s,
  0 < n -> well_formed n p0 -> Forall (fun c => own c < n) cfgs -> cfgs <> [] -> reachable n cfgs p0 s ->
  all_stopped s -> (executed s).*2 ≡ₚ tasks_of p0.
Proof. intros. eapply exactly_once; eauto. Qed.
Print Assumptions C06_exactly_once.

(** At every moment no task has been executed twice, nor an unknown one: what was executed can be completed to a
    rearrangement of the tasks. *)
Theorem C06_never_twice : forall (T : Type) n cfgs (p0 : list (pop T)) s,
  well_formed n p0 -> Forall (fun c => own c < n) cfgs -> reachable n cfgs p0 s ->
  exists rest, (executed s).*2 ++ rest ≡ₚ tasks_of p0.
Proof. intros. eexists. eapply i_perm. eapply inv_reachable; eauto. Qed.
Print Assumptions C06_never_twice.

(** With at most 256 queues no worker leaves the bounds of its end-marker table ... *)
Theorem C06_no_overflow : forall (T : Type) n cfgs (p0 : list (pop T)) s i w,
  n <= 256 -> well_formed n p0 -> Forall (fun c => own c < n) cfgs -> reachable n cfgs p0 s ->
  workers s !! i = Some w -> wpc w <> PUB.
Proof. intros. eapply no_ub; eauto. Qed.
Print Assumptions C06_no_overflow.

(** *** Liveness: every step changes nothing (a random victim that is known to be exhausted) or brings the end nearer. *)
Section Live.
Context {T : Type}.
Definition dist (n : nat) (c : wcfg) (q : nat) : nat := (own c + n - q) mod n.
Definition wpcw (n : nat) (c : wcfg) (p : pc) : nat :=
  match p with
  | POwn => 2 * n + 600
  | PSeqPri q => n + 2 + dist n c q
  | PSeq q => 1 + dist n c q
  | PRandPri e => 258 + (256 - count_true e)
  | PRand e => 1 + (256 - count_true e)
  | PStop | PUB => 0
  end.
Definition wpop (o : pop T) : nat := match o with PEnq _ _ => 3 | PClose _ => 1 end.
Definition ww (n : nat) (cw : wcfg * worker T) : nat := wpcw n (fst cw) (wpc (snd cw)) + length (option_list (held (snd cw))).
Definition work_left (cfgs : list wcfg) (s : state T) : nat :=
  sumw wpop (prod s) + sumw (fun qu => 2 * length (items qu)) (queues s) + sumw (ww (length (queues s))) (zip cfgs (workers s)).

Lemma dist_succ n c q : own c < n -> q < n -> q <> own c -> dist n c ((q + 1) mod n) < dist n c q.
Proof.
  intros Ho Hq Hne. unfold dist. destruct (decide (q + 1 = n)) as [E|E].
  - rewrite E, Nat.mod_same by lia. replace (own c + n - 0) with (own c + 1 * n) by lia. rewrite Nat.mod_add, Nat.mod_small by lia.
    rewrite (Nat.mod_small (own c + n - q)) by lia. lia.
  - rewrite (Nat.mod_small (q + 1)) by lia. destruct (decide (q < own c)).
    + replace (own c + n - (q + 1)) with (own c - q - 1 + 1 * n) by lia. replace (own c + n - q) with (own c - q + 1 * n) by lia.
      rewrite !Nat.mod_add, !Nat.mod_small by lia. lia.
    + rewrite !Nat.mod_small by lia. lia.
Qed.
Lemma dist_lt n c q : 0 < n -> dist n c q < n.
Proof. intros. apply Nat.mod_upper_bound. lia. Qed.

Lemma count_true_insert e q : e !! q = Some false -> count_true (<[q := true]> e) = S (count_true e).
Proof. revert q. induction e as [|b e IH]; intros [|q] H; try discriminate; simpl in *; [injection H as ->; done|]. rewrite IH by done. by destruct b. Qed.

Lemma zip_insert (cfgs : list wcfg) (ws : list (worker T)) i c w : cfgs !! i = Some c ->
  zip cfgs (<[i := w]> ws) = <[i := (c, w)]> (zip cfgs ws).
Proof. intros H. rewrite <- (list_insert_id cfgs i c H) at 1. symmetry. rewrite <- insert_zip_with. done. Qed.

Lemma ww_insert n cfgs ws i c (w w' : worker T) : cfgs !! i = Some c -> ws !! i = Some w ->
  sumw (ww n) (zip cfgs (<[i := w']> ws)) + ww n (c, w) = sumw (ww n) (zip cfgs ws) + ww n (c, w').
Proof.
  intros Hc Hw. rewrite (zip_insert _ _ _ c) by done. apply sumw_insert. rewrite lookup_zip_with, Hc. simpl. rewrite Hw. done.
Qed.

Lemma next_goto_measure n c (s : state T) p r k : own c < n -> next n c r p = Some (Goto k) -> winv n c s (Worker p None) ->
  k = p \/ wpcw n c k < wpcw n c p.
Proof.
  intros Ho. unfold winv. cbn [wpc held]. destruct p as [|q|q|e|e| |]; cbn [next]; try discriminate.
  - repeat case_match; try discriminate; intros [= <-].
    + intros _. right. cbn [wpcw]. pose proof (dist_lt n c ((q + 1) mod n) ltac:(lia)). lia.
    + intros (Hn & (k0 & Hk & ->) & Hce). right. cbn [wpcw].
      pose proof (dist_succ n c ((own c + k0) mod n) Ho (Nat.mod_upper_bound (own c + k0) n ltac:(lia)) ltac:(done)). lia.
  - case_decide as D; try discriminate; intros [= <-] _. right. cbn [wpcw]. lia.
  - case_decide as D.
    + case_match; [|intros [= <-]; auto]. case_match eqn:E; [case_match|]; try discriminate; intros [= <-]; auto.
      intros _. right. cbn [wpcw]. lia.
    + intros [= <-] _. right. cbn [wpcw]. lia.
  - case_decide as D.
    + case_match eqn:E; [case_match|]; try discriminate; intros [= <-]; auto. intros _. right. cbn [wpcw]. lia.
    + intros [= <-] _. right. cbn [wpcw]. lia.
Qed.

Lemma next_eof_measure n c (s : state T) p r q k : own c < n -> next n c r p = Some (DeqQ q k) -> winv n c s (Worker p None) ->
  wpcw n c k < wpcw n c p.
Proof.
  intros Ho. unfold winv. cbn [wpc held]. destruct p as [|q0|q0|e|e| |]; cbn [next]; try discriminate.
  - intros [= <- <-] _. unfold after_own. pose proof (dist_lt n c ((own c + 1) mod n) ltac:(lia)).
    case_decide; [destruct (policy c); [|destruct (percpu c)| |destruct (percpu c)]|]; cbn [wpcw]; lia.
  - repeat case_match; try discriminate; intros [= <- <-] (Hn & (k0 & Hk & ->) & Hce). cbn [wpcw].
    pose proof (dist_succ n c ((own c + k0) mod n) Ho (Nat.mod_upper_bound (own c + k0) n ltac:(lia)) ltac:(done)). lia.
  - case_decide as D; try discriminate; intros [= <- <-] (Hn & k0 & Hk & -> & Hce0). cbn [wpcw].
    pose proof (dist_succ n c ((own c + k0) mod n) Ho (Nat.mod_upper_bound (own c + k0) n ltac:(lia)) ltac:(done)). lia.
  - case_decide as D; [|discriminate]. case_match eqn:E0; [|discriminate]. case_match eqn:E; [|discriminate]. case_match; [discriminate|]. subst.
    intros [= <- <-] (Hn & Hl & He). cbn [wpcw]. pose proof (count_true_le (<[r mod n:=true]> e)) as L. rewrite insert_length in L.
    rewrite count_true_insert in * by done. lia.
  - case_decide as D; [|discriminate]. case_match eqn:E; [|discriminate]. case_match; [discriminate|]. subst.
    intros [= <- <-] (Hn & Hl & He). cbn [wpcw]. pose proof (count_true_le (<[r mod n:=true]> e)) as L. rewrite insert_length in L.
    rewrite count_true_insert in * by done. lia.
Qed.

Lemma step_measure n cfgs p0 (s s' : state T) : well_formed n p0 -> Forall (fun c => own c < n) cfgs -> inv n cfgs p0 s ->
  step cfgs s s' -> s' = s \/ work_left cfgs s' < work_left cfgs s.
Proof.
  intros WF OW I H. destruct I as [NQ NW _ _ IW]. revert NQ NW IW.
  destruct H as [q0 t p qu s Hp Hq|q0 p qu s Hp Hq|i p t s Hi|i c p r k s Hi Hc Hn|i c p r q0 k t l b s Hi Hc Hn Hq|i c p r q0 k s Hi Hc Hn Hq];
    intros NQ NW IW; unfold work_left, set_worker; cbn [prod queues workers]; rewrite ?insert_length.
  - right. rewrite Hp. simpl.
    pose proof (sumw_insert (fun qu => 2 * length (items qu)) _ _ _ (Queue (items qu ++ [t]) (qclosed qu)) Hq) as E.
    cbn [items] in E. rewrite app_length in E. simpl in *. lia.
  - right. rewrite Hp. simpl.
    pose proof (sumw_insert (fun qu => 2 * length (items qu)) _ _ _ (Queue (items qu) true) Hq) as E. cbn [items] in E. simpl in *. lia.
  - right. assert (exists c, cfgs !! i = Some c) as [c Hc] by (apply lookup_lt_is_Some; rewrite <- NW; eapply lookup_lt_Some; exact Hi).
    pose proof (ww_insert (length (queues s)) _ _ _ _ _ (Worker p None) Hc Hi) as E. unfold ww in E at 2 4. simpl in E. lia.
  - rewrite NQ in *. pose proof (Forall_lookup_1 _ _ _ _ OW Hc) as Ho. simpl in Ho.
    destruct (next_goto_measure n c s p r k Ho Hn (IW _ _ _ Hc Hi)) as [->|M].
    + left. rewrite list_insert_id by done. by destruct s.
    + right. pose proof (ww_insert n _ _ _ _ _ (Worker k None) Hc Hi) as E. unfold ww in E at 2 4. simpl in E. lia.
  - right. pose proof (sumw_insert (fun qu => 2 * length (items qu)) _ _ _ (Queue l b) Hq) as E. cbn [items] in E. simpl in E.
    pose proof (ww_insert (length (queues s)) _ _ _ _ _ (Worker p (Some t)) Hc Hi) as E'. unfold ww in E' at 2 4. simpl in E'. simpl. lia.
  - right. rewrite NQ in *. pose proof (Forall_lookup_1 _ _ _ _ OW Hc) as Ho. simpl in Ho.
    pose proof (next_eof_measure n c s p r q0 k Ho Hn (IW _ _ _ Hc Hi)) as M.
    pose proof (ww_insert n _ _ _ _ _ (Worker k None) Hc Hi) as E. unfold ww in E at 2 4. simpl in E. lia.
Qed.

(** A random number exists that makes the worker look at a queue it has not seen the end of. *)
Lemma count_true_lt_ex e n : count_true e < n -> n <= length e -> exists q, q < n /\ e !! q = Some false.
Proof.
  revert n. induction e as [|b e IH]; intros n H1 H2; simpl in *; [lia|]. destruct n as [|n]; [lia|].
  destruct b.
  - destruct (IH n) as (q & ? & ?); [lia|lia|]. exists (S q). split; [lia|done].
  - exists 0. split; [lia|done].
Qed.
Lemma count_true_le_sub a : forall e : list bool, length a <= length e -> (forall q, a !! q = Some true -> e !! q = Some true) -> count_true a <= count_true e.
Proof.
  induction a as [|b a IH]; intros [|x e] H1 H2; simpl in *; try lia.
  assert (count_true a <= count_true e) by (apply IH; [lia|]; intros q; apply (H2 (S q))).
  destruct b; [specialize (H2 0 eq_refl); injection H2 as ->; lia|destruct x; lia].
Qed.
Lemma count_dom_ex (a e : list bool) : count_true e < count_true a -> length a <= length e ->
  exists q, a !! q = Some true /\ e !! q = Some false.
Proof.
  revert e. induction a as [|b a IH]; intros [|x e] H1 H2; simpl in *; try lia.
  destruct b, x; try (exists 0; done).
  - destruct (IH e) as (q & ? & ?); [lia|lia|]. by exists (S q).
  - destruct (IH e) as (q & ? & ?); [lia|lia|]. by exists (S q).
  - destruct (IH e) as (q & ? & ?); [lia|lia|]. by exists (S q).
Qed.

(** What an unfinished worker can do: a move to another control point, or a dequeue on an existing queue. *)
Lemma next_enabled n c (s : state T) p : n <= 256 -> own c < n -> winv n c s (Worker p None) -> p <> PStop ->
  exists r, (exists k, next n c r p = Some (Goto k) /\ k <> p) \/ (exists q k, next n c r p = Some (DeqQ q k) /\ q < n).
Proof.
  intros H256 Ho. unfold winv. cbn [wpc held]. destruct p as [|q|q|e|e| |]; intros W Hns; try done; cbn [next].
  - exists 0. right. eauto.
  - exists 0. case_decide as D; [left; eexists; split; [done|discriminate]|]. destruct W as (Hn & (k & Hk & ->) & _).
    assert (L : (own c + k) mod n < n) by (apply Nat.mod_upper_bound; lia).
    case_match; [right; eauto|]. left. eexists. split; [done|]. intros [= E].
    pose proof (dist_succ n c _ Ho L D) as DS. rewrite E in DS. lia.
  - exists 0. case_decide as D; [left; eexists; split; [done|discriminate]|]. destruct W as (Hn & k & Hk & -> & _).
    right. eexists _, _. split; [done|]. apply Nat.mod_upper_bound; lia.
  - destruct W as (Hn & Hl & He). case_decide as D; [|exists 0; left; eexists; split; [done|discriminate]].
    destruct (count_dom_ex _ _ D) as (q & Hq1 & Hq2); [rewrite fmap_length, seq_length; lia|].
    rewrite list_lookup_fmap in Hq1. destruct (seq 0 n !! q) as [q'|] eqn:E; [|discriminate]. apply lookup_seq in E as [-> Hlt].
    simpl in Hq1. exists q. right. rewrite Nat.mod_small by lia. injection Hq1 as ->. rewrite Hq2. eauto.
  - destruct W as (Hn & Hl & He). case_decide as D; [|exists 0; left; eexists; split; [done|discriminate]].
    destruct (count_true_lt_ex e n D) as (q & Hq1 & Hq2); [lia|]. exists q. right. rewrite Nat.mod_small by lia. rewrite Hq2. eauto.
  - lia.
Qed.

Lemma progress n cfgs p0 (s : state T) : n <= 256 -> well_formed n p0 -> Forall (fun c => own c < n) cfgs -> inv n cfgs p0 s ->
  ~ all_stopped s -> exists s', step cfgs s s' /\ s' <> s.
Proof.
  intros H256 WF OW I NS. pose proof I as [NQ NW (pre & Ep & Hpre) _ IW]. destruct WF as (W1 & W2 & W3 & W4).
  destruct (prod s) as [|[q t|q] p] eqn:EP.
  - assert (ALL : forall q, q < n -> exists qu, queues s !! q = Some qu /\ qclosed qu = true).
    { intros q Hq. assert (exists qu, queues s !! q = Some qu) as [qu Hqu] by (apply lookup_lt_is_Some; lia).
      exists qu. split; [done|]. apply (Hpre _ _ Hqu). rewrite app_nil_r in Ep. rewrite <- Ep. auto. }
    assert (exists i w, workers s !! i = Some w /\ ~ (wpc w = PStop /\ held w = None)) as (i & [p [t|]] & Hw & HN).
    { unfold all_stopped in NS. clear -NS. induction (workers s) as [|w l IH]; [exfalso; apply NS; constructor|].
      assert (D : (wpc w = PStop /\ held w = None) \/ ~ (wpc w = PStop /\ held w = None)).
      { destruct (wpc w), (held w); try (left; by split); right; intros [? ?]; discriminate. }
      destruct D as [D|D]; [|exists 0, w; done].
      destruct IH as (i & w' & ? & ?); [intros F; apply NS; by constructor|]. exists (S i), w'. done. }
    + eexists. split; [eapply st_exec; exact Hw|]. intros E. apply (f_equal executed) in E. simpl in E.
      apply (f_equal length) in E. rewrite app_length in E. simpl in E. lia.
    + assert (exists c, cfgs !! i = Some c) as [c Hc] by (apply lookup_lt_is_Some; rewrite <- NW; eapply lookup_lt_Some; exact Hw).
      pose proof (Forall_lookup_1 _ _ _ _ OW Hc) as Ho. simpl in Ho.
      assert (Hps : p <> PStop) by (intros ->; apply HN; done).
      destruct (next_enabled n c s p H256 Ho (IW _ _ _ Hc Hw) Hps) as (r & [(k & Hk & Hne)|(q & k & Hk & Hq)]).
      * eexists. split; [eapply st_goto; eauto; by rewrite NQ|]. intros E. apply (f_equal workers) in E. simpl in E.
        apply (f_equal (.!! i)) in E. rewrite list_lookup_insert, Hw in E by (eapply lookup_lt_Some; exact Hw). injection E as ->. done.
      * destruct (ALL q Hq) as ([[|t l] b] & Hqu & Hcl); simpl in Hcl; subst b.
        -- eexists. split; [eapply st_eof; eauto; by rewrite NQ|]. intros E. apply (f_equal workers) in E. simpl in E.
           apply (f_equal (.!! i)) in E. rewrite list_lookup_insert, Hw in E by (eapply lookup_lt_Some; exact Hw). injection E as ->.
           pose proof (next_eof_measure n c s p r q p Ho Hk (IW _ _ _ Hc Hw)). lia.
        -- eexists. split; [eapply st_got; eauto; by rewrite NQ|]. intros E. apply (f_equal workers) in E. simpl in E.
           apply (f_equal (.!! i)) in E. rewrite list_lookup_insert, Hw in E by (eapply lookup_lt_Some; exact Hw). discriminate.
  - assert (Hq : q < n) by (apply (W1 q t); rewrite Ep; set_solver).
    assert (exists qu, queues s !! q = Some qu) as [qu Hqu] by (apply lookup_lt_is_Some; lia).
    eexists. split; [eapply st_enq; eauto|]. intros E. apply (f_equal prod) in E. simpl in E. rewrite EP in E.
    apply (f_equal length) in E. simpl in E. lia.
  - assert (Hq : q < n) by (apply (W2 q); rewrite Ep; set_solver).
    assert (exists qu, queues s !! q = Some qu) as [qu Hqu] by (apply lookup_lt_is_Some; lia).
    eexists. split; [eapply st_close; eauto|]. intros E. apply (f_equal prod) in E. simpl in E. rewrite EP in E.
    apply (f_equal length) in E. simpl in E. lia.
Qed.

(** [n] state-changing steps. *)
Inductive changes (cfgs : list wcfg) : nat -> state T -> state T -> Prop :=
| ch_nil s : changes cfgs 0 s s
| ch_same n s s' s'' : step cfgs s s' -> s' = s -> changes cfgs n s' s'' -> changes cfgs n s s''
| ch_step n s s' s'' : step cfgs s s' -> s' <> s -> changes cfgs n s' s'' -> changes cfgs (S n) s s''.

Lemma changes_bound n cfgs p0 k (s s' : state T) : well_formed n p0 -> Forall (fun c => own c < n) cfgs ->
  inv n cfgs p0 s -> changes cfgs k s s' -> k <= work_left cfgs s.
Proof.
  intros WF OW I H. induction H as [s|k s s' s'' Hst E _ IH|k s s' s'' Hst Hne _ IH]; [lia|subst; auto|].
  pose proof (inv_step _ _ _ _ _ WF OW I Hst) as I'. destruct (step_measure _ _ _ _ _ WF OW I Hst) as [?|M]; [done|].
  specialize (IH I'). lia.
Qed.

Lemma can_finish n cfgs p0 : n <= 256 -> well_formed n p0 -> Forall (fun c => own c < n) cfgs ->
  forall m (s : state T), work_left cfgs s <= m -> reachable n cfgs p0 s -> exists s', reachable n cfgs p0 s' /\ all_stopped s'.
Proof.
  intros H256 WF OW m. induction m as [m IH] using lt_wf_ind. intros s Hm HR.
  pose proof (inv_reachable _ _ _ _ WF OW HR) as I.
  assert (D : all_stopped s \/ ~ all_stopped s).
  { unfold all_stopped. induction (workers s) as [|w l IHl]; [by left; constructor|].
    destruct IHl as [F|F]; [|right; intros G; inversion G; done].
    assert (Dw : (wpc w = PStop /\ held w = None) \/ ~ (wpc w = PStop /\ held w = None)).
    { destruct (wpc w), (held w); try (left; by split); right; intros [? ?]; discriminate. }
    destruct Dw; [by left; constructor|right; intros G; inversion G; done]. }
  destruct D as [D|D]; [eauto|].
  destruct (progress _ _ _ _ H256 WF OW I D) as (s' & Hst & Hne).
  destruct (step_measure _ _ _ _ _ WF OW I Hst) as [?|M]; [done|].
  eapply (IH (work_left cfgs s')); [lia|done|]. eapply re_step; eauto.
Qed.
End Live.

(** No reachable state is stuck before all workers have stopped; every execution has boundedly many steps that change
    anything (the others are random victims already known to be exhausted). *)
Theorem C06_progress : forall (T : Type) n cfgs (p0 : list (pop T)) s,
  n <= 256 -> well_formed n p0 -> Forall (fun c => own c < n) cfgs -> reachable n cfgs p0 s ->
  ~ all_stopped s -> exists s', step cfgs s s' /\ s' <> s.
Proof. intros. eapply progress; eauto. eapply inv_reachable; eauto. Qed.
Print Assumptions C06_progress.

Theorem C06_bounded : forall (T : Type) n cfgs (p0 : list (pop T)),
  well_formed n p0 -> Forall (fun c => own c < n) cfgs ->
  exists bound, forall k s, changes cfgs k (init n cfgs p0) s -> k <= bound.
Proof. intros T n cfgs p0 WF OW. exists (work_left cfgs (init n cfgs p0)). intros. eapply changes_bound; eauto. apply inv_init. Qed.
Print Assumptions C06_bounded.

(** Example: three queues, two workers (one sequential, one random), five tasks. The hypotheses hold and a final
    state is reachable, in which the five tasks have been executed. *)
Definition ex_cfgs : list wcfg := [WCfg 0 (fun q => q =? 1)%nat true SEQPRI; WCfg 2 (fun _ => true) false RANDOM].
Definition ex_prog : list (pop nat) := [PEnq 0 10; PEnq 1 11; PEnq 2 12; PEnq 0 13; PClose 0; PEnq 1 14; PClose 1; PClose 2].
Example C06_example : well_formed 3 ex_prog /\ Forall (fun c => own c < 3) ex_cfgs /\
  exists s, reachable 3 ex_cfgs ex_prog s /\ all_stopped s /\ (executed s).*2 ≡ₚ [10; 11; 12; 13; 14].
Proof.
  assert (WF : well_formed 3 ex_prog).
  { unfold ex_prog. split_and!.
    - intros q t H. repeat (apply elem_of_cons in H as [H|H]; [try discriminate; try (injection H as -> ->; lia)|]).
      by apply elem_of_nil in H.
    - intros q H. repeat (apply elem_of_cons in H as [H|H]; [try discriminate; try (injection H as ->; lia)|]).
      by apply elem_of_nil in H.
    - intros q Hq. destruct q as [|[|[|q]]]; [set_solver..|lia].
    - intros pre post q t H. repeat (destruct pre as [|? pre]; [first [discriminate H|injection H as <- <-; set_solver]|];
        first [discriminate H|injection H as _ H]). }
  assert (OW : Forall (fun c => own c < 3) ex_cfgs) by (repeat constructor).
  split; [done|]. split; [done|].
  destruct (can_finish 3 ex_cfgs ex_prog ltac:(lia) WF OW _ _ (Nat.le_refl _) (re_init _ _ _)) as (s & HR & AS).
  exists s. split; [done|]. split; [done|]. apply (exactly_once 3 ex_cfgs ex_prog s); auto.
Qed.

(** ... but with more than 256 queues a worker that steals at random may access its table out of bounds. *)
Theorem C06_more_than_256_queues_refuted : forall n, 256 < n ->
  exists (cfgs : list wcfg) (p0 : list (pop nat)) s w,
    well_formed n p0 /\ Forall (fun c => own c < n) cfgs /\ reachable n cfgs p0 s /\
    workers s !! 0 = Some w /\ wpc w = PUB.
Proof.
  intros n Hn. set (c := WCfg 0 (fun _ => true) false RANDOM).
  set (p0 := (PClose <$> seq 0 n) : list (pop nat)).
  assert (WF : well_formed n p0).
  { unfold p0. split_and!.
    - intros q t H. apply elem_of_list_fmap in H as (? & ? & ?). discriminate.
    - intros q H. apply elem_of_list_fmap in H as (? & [= ->] & H). apply elem_of_seq in H. lia.
    - intros q Hq. apply elem_of_list_fmap. exists q. split; [done|]. apply elem_of_seq. lia.
    - intros pre post q t H Hin. assert (PEnq q t ∈ (PClose <$> seq 0 n : list (pop nat))) as X by (rewrite H; set_solver).
      apply elem_of_list_fmap in X as (? & ? & ?). discriminate. }
  assert (exists m, n = S m) as [m Em] by (exists (n - 1); lia).
  set (s0 := init n [c] p0).
  assert (R0 : reachable n [c] p0 s0) by constructor.
  (* the producer closes queue 0; the worker gets its end marker, then draws 256 *)
  assert (Q0 : queues s0 !! 0 = Some (Queue [] false)) by (unfold s0; simpl; rewrite Em; done).
  assert (EP : prod s0 = PClose 0 :: (PClose <$> seq 1 m)) by (unfold s0, p0; simpl; rewrite Em; done).
  pose proof (re_step _ _ _ _ _ R0 (st_close [c] 0 _ _ s0 EP Q0)) as R1. simpl in R1.
  set (s1 := State (PClose <$> seq 1 m) (<[0 := Queue [] true]> (queues s0)) (workers s0) (executed s0)) in *.
  assert (L1 : length (queues s1) = n) by (unfold s1; simpl; rewrite insert_length; apply replicate_length).
  assert (R2 : reachable n [c] p0 (set_worker s1 0 (Worker (PRand no_eof) None))).
  { eapply re_step; [exact R1|]. eapply (st_eof _ 0 c POwn 0 0 (PRand no_eof) s1); try done.
    - rewrite L1. simpl. unfold after_own. rewrite decide_True by lia. done.
    - unfold s1; simpl. rewrite Em. done. }
  assert (R3 : reachable n [c] p0 (set_worker (set_worker s1 0 (Worker (PRand no_eof) None)) 0 (Worker PUB None))).
  { eapply re_step; [exact R2|]. eapply (st_goto _ 0 c (PRand no_eof) 256 PUB); try done.
    cbn [queues set_worker]. rewrite L1. cbn [next]. rewrite decide_True.
    - rewrite Nat.mod_small by lia. reflexivity.
    - assert (count_true no_eof = 0) as -> by (apply count_true_zero, no_eof_lookup). lia. }
  eexists [c], p0, _, _. split; [done|]. split; [repeat constructor; simpl; lia|]. split; [exact R3|]. split; reflexivity.
Qed.
Print Assumptions C06_more_than_256_queues_refuted.
