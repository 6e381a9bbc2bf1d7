(** C64: pipelines that scan the same matrix become one (horizontal fusion); when that keeps the program and where it breaks it. *)
From stdpp Require Import base numbers sorting list.
From Verif Require Import CppBase OrderProofs FusionModel FusionSpec FusionProofs Fusion HFuseModel HFuseSpec HFuseProofs HFuseLoop.

(** If no pipeline needs a result of another one, sharing a scan is transitive, control structures do not use what pipelines compute, and
    each pipeline that will be fused with a later one is directly followed by an operation that uses its result and needs no other pipeline, then the pass
    succeeds; the result is a valid program with the same operations that computes the same values; all pipelines that share a scan are
    one pipeline, with their operations in the order of the program; there are no other pipelines, and the other operations are still there. *)
Theorem C64_fuse blk : ordered (concat blk) -> well_formed blk -> independent blk -> transitive_sharing blk -> nested_plain blk -> followed blk ->
  exists blk', hfuse blk = Ok blk' /\ concat blk' ≡ₚ concat blk /\ ordered (concat blk') /\ well_formed blk' /\
    (forall (V : Type) (f : nat -> list V -> V) env x, eval f (concat blk') env x = eval f (concat blk) env x) /\
    (forall it, plain it -> it ∈ blk' <-> it ∈ blk) /\
    (forall p, p ∈ blk -> pipeline p -> exists ps, ps `sublist_of` blk /\ (forall q, q ∈ ps <-> q ∈ blk /\ pipeline q /\ (q = p \/ share p q)) /\ concat ps ∈ blk') /\
    (forall it, it ∈ blk' -> pipeline it -> exists p ps, p ∈ blk /\ pipeline p /\ ps `sublist_of` blk /\ (forall q, q ∈ ps <-> q ∈ blk /\ pipeline q /\ (q = p \/ share p q)) /\ it = concat ps).
Proof.
  intros Ho Hw Hi Ht Hn Hf. destruct (pass blk Ho Hw Hi Ht Hn Hf) as (blk' & H1 & H2 & H3 & H4 & H5 & H6 & H7 & _). exists blk'. repeat (split; [done|]). split; [|done].
  intros V f env x. by apply eval_perm.
Qed.

(** If, in addition, there is one group of pipelines that share a scan, and everything with side effects between two of them needs one of them,
    the side effects keep their order. *)
Theorem C64_effects blk blk' : ordered (concat blk) -> well_formed blk -> independent blk -> transitive_sharing blk -> nested_plain blk -> followed blk ->
  one_group blk -> effects_need blk -> (forall o, o ∈ concat blk -> o_vec o = true -> o_eff o = false) ->
  hfuse blk = Ok blk' -> effects (concat blk') = effects (concat blk).
Proof.
  intros Ho Hw Hi Ht Hn Hf Hg He Hp E. destruct (pass blk Ho Hw Hi Ht Hn Hf) as (blk2 & H1 & _ & _ & _ & _ & _ & _ & H8). rewrite H1 in E. injection E as <-. by apply H8.
Qed.

(** Without two pipelines that share a scan nothing changes, whatever the program looks like. *)
Theorem C64_none blk : ordered (concat blk) -> well_formed blk -> (forall p q, p ∈ blk -> q ∈ blk -> pipeline p -> pipeline q -> p <> q -> ~ share p q) -> hfuse blk = Ok blk.
Proof.
  intros Ho Hw Hs. unfold hfuse. assert (pairs_of blk (all_pipes blk) = []) as E; [|unfold all_pipes in E; by rewrite E].
  pose proof (all_heads blk Ho Hw) as Hn. assert (forall p, p ∈ all_pipes blk -> p ∈ blk /\ pipeline p) as Ha by (intros p; by apply all_pipes_in).
  induction (all_pipes blk) as [|p ps IH]; [done|]. cbn in Hn. apply NoDup_cons in Hn as [Hn1 Hn2]. cbn [pairs_of]. rewrite IH; [|done|intros; apply Ha; by right]. rewrite app_nil_r.
  assert (forall q, q ∈ ps -> common p q = []) as Hc.
  { intros q Hq. destruct (decide (common p q = [])) as [|Hne]; [done|]. exfalso. apply share_common in Hne. destruct (Ha p) as [? ?]; [left|]. destruct (Ha q) as [? ?]; [by right|]. apply (Hs p q); try done. intros ->. apply Hn1. by apply elem_of_list_fmap_1. }
  clear - Hc. induction ps as [|q qs IH]; [done|]. cbn. rewrite IH by (intros; apply Hc; by right). rewrite Hc by left. by destruct (op_dep blk q (head_id p)).
Qed.

(** * Checking the hypotheses of concrete blocks *)
Definition closed (l : list vop) (R : list (nat * nat)) : Prop :=
  Forall (fun y => Forall (fun a => (o_id y, a) ∈ R) (uses y) /\ Forall (fun e => fst e ∈ uses y -> (o_id y, snd e) ∈ R) R) l.
Global Instance closed_dec l R : Decision (closed l R).
Proof. unfold closed. apply _. Defined.
Lemma closed_reach l R x a : closed l R -> reach l x a -> (x, a) ∈ R.
Proof.
  intros Hc. unfold closed in Hc. rewrite Forall_forall in Hc. induction 1 as [y a Hy Ha|y z a Hy Hz Hu Hv Hre IH].
  - destruct (Hc y Hy) as [H _]. rewrite Forall_forall in H. by apply H.
  - destruct (Hc y Hy) as [_ H]. rewrite Forall_forall in H. by apply (H (o_id z, a)).
Qed.
Definition pipelineb (it : list vop) : bool := bool_decide (it <> []) && forallb o_vec it.
Lemma pipelineb_iff it : pipelineb it = true <-> pipeline it.
Proof. unfold pipelineb, pipeline. rewrite andb_true_iff, bool_decide_eq_true, forallb_forall. split; intros [H1 H2]; (split; [done|]); intros o Ho; apply H2; by apply elem_of_list_In. Qed.
Global Instance pipeline_dec it : Decision (pipeline it).
Proof. destruct (pipelineb it) eqn:E; [left|right]; rewrite <- pipelineb_iff; by rewrite E. Defined.
Lemma check_wf blk : Forall (fun it => pipeline it \/ (match it with [o] => negb (o_vec o) | _ => false end) = true) blk -> well_formed blk.
Proof. rewrite Forall_forall. intros H it Hi. destruct (H it Hi) as [?|H1]; [by left|right]. destruct it as [|o [|]]; [done| |done]. exists o. by apply negb_true_iff in H1. Qed.
Lemma check_ind blk R : closed (concat blk) R -> Forall (fun p => Forall (fun q => pipeline p -> pipeline q -> p <> q -> Forall (fun o => Forall (fun r => (o_id o, o_id r) ∉ R) q) p) blk) blk -> independent blk.
Proof.
  intros Hc H p q o r Hp Hq Pp Pq Hpq Ho Hr Hre. rewrite Forall_forall in H. specialize (H p Hp). rewrite Forall_forall in H. specialize (H q Hq Pp Pq Hpq). rewrite Forall_forall in H. specialize (H o Ho). rewrite Forall_forall in H. apply (H r Hr). by eapply closed_reach.
Qed.
Lemma check_trans blk : Forall (fun p => Forall (fun q => Forall (fun r => pipeline p -> pipeline q -> pipeline r -> p <> q -> q <> r -> p <> r -> share p q -> share q r -> share p r) blk) blk) blk -> transitive_sharing blk.
Proof. intros H p q r Hp Hq Hr. rewrite Forall_forall in H. specialize (H p Hp). rewrite Forall_forall in H. specialize (H q Hq). rewrite Forall_forall in H. by apply H. Qed.
Lemma check_nested blk R : closed (concat blk) R -> Forall (fun y => Forall (fun a => Forall (fun r => o_vec r = true -> a <> o_id r /\ (a, o_id r) ∉ R) (concat blk)) (o_nested y)) (concat blk) -> nested_plain blk.
Proof.
  intros Hc H y a r Hy Ha Hr Hv. rewrite Forall_forall in H. specialize (H y Hy). rewrite Forall_forall in H. specialize (H a Ha). rewrite Forall_forall in H. destruct (H r Hr Hv) as [H1 H2]. split; [done|]. intros Hre. apply H2. by eapply closed_reach.
Qed.
Fixpoint follows (all : list vop) (R : list (nat * nat)) (blk : list (list vop)) : Prop :=
  match blk with
  | [] => True
  | p :: t => (Exists (fun q => pipeline p /\ pipeline q /\ share p q) t ->
      match t with [f] :: _ => o_vec f = false /\ Exists (fun r => o_id r ∈ o_args f) p /\ Forall (fun r => o_vec r = true -> r ∉ p -> (o_id f, o_id r) ∉ R) all | _ => False end) /\ follows all R t
  end.
Global Instance follows_dec all R blk : Decision (follows all R blk).
Proof.
  induction blk as [|p t IH]; cbn; [apply _|]. apply and_dec; [|done]. apply impl_dec; [apply _|]. destruct t as [|[|f [|]] t]; apply _.
Defined.
Lemma check_followed blk R : closed (concat blk) R -> follows (concat blk) R blk -> followed blk.
Proof.
  intros Hc Hf l1 p l2 q l3 E Pp Pq Hs. assert (follows (concat blk) R (p :: l2 ++ q :: l3)) as [H _].
  { rewrite E in Hf at 2. clear -Hf. induction l1 as [|x l1 IH]; [done|]. destruct Hf as [_ Hf]. by apply IH. }
  destruct l2 as [|x l2].
  - exfalso. cbn [app] in H. destruct q as [|f [|]]; [by destruct Pq| |]; (destruct H; [apply Exists_exists; eexists; split; [left|done]|..]); [|done..]. destruct Pq as [_ Pq]. rewrite Pq in H; [done|left].
  - cbn [app] in H. destruct x as [|f [|]]; (try (destruct H; apply Exists_exists; exists q; split; [right; apply elem_of_app; right; left|done])).
    destruct H as (H1 & H2 & H3); [apply Exists_exists; exists q; split; [right; apply elem_of_app; right; left|done]|]. exists f, l2. split; [done|]. split; [done|]. apply Exists_exists in H2 as (r & Hr & Hra). split; [by exists r|].
    intros r' Hr' Hv Hnp Hre. rewrite Forall_forall in H3. apply (H3 r' Hr' Hv Hnp). by eapply closed_reach.
Qed.
Ltac hyps R := split; [once ord|]; split; [apply check_wf; dec|]; split; [apply (check_ind _ R); dec|]; split; [apply check_trans; dec|]; split; [apply (check_nested _ R); dec|].

(** * A concrete case: print(sum(X)); y = f(Y); print(y); print(sum(g(X + 1))); print(max(X)) *)
Definition pl (i : nat) (a : list nat) := mkOp i a [] false false [] false.
Definition prt (i : nat) (a : list nat) := mkOp i a [] false false [] true.
Definition hx_blk := [[vec 10 [0]]; [prt 11 [10]]; [vec 20 [1]]; [pl 21 [20]]; [vec 12 [0]; vec 13 [12]]; [prt 14 [13]]; [vec 15 [0]]; [prt 16 [15]]].
Definition hx_R := [(10, 0); (11, 10); (11, 0); (20, 1); (21, 20); (21, 1); (12, 0); (13, 12); (13, 0); (14, 13); (14, 12); (14, 0); (15, 0); (16, 15); (16, 0)].
Theorem C64_ex : ordered (concat hx_blk) /\ well_formed hx_blk /\ independent hx_blk /\ transitive_sharing hx_blk /\ nested_plain hx_blk /\ followed hx_blk /\
  (let* b := hfuse hx_blk in Ok (names <$> b)) = Ok [[20]; [21]; [10; 12; 13; 15]; [11]; [14]; [16]].
Proof. hyps hx_R. split; [apply (check_followed _ hx_R); dec|]. by vm_compute. Qed.

Lemma check_group blk : Forall (fun p => Forall (fun q => pipeline p -> pipeline q -> p <> q -> share p q -> Forall (fun p' => Forall (fun q' => pipeline p' -> pipeline q' -> p' <> q' -> share p' q' -> p = p' \/ share p p') blk) blk) blk) blk -> one_group blk.
Proof.
  intros H p q p' q' Hp Hq Hp' Hq' Pp Pq Pp' Pq' N1 S1 N2 S2. rewrite Forall_forall in H. specialize (H p Hp). rewrite Forall_forall in H. specialize (H q Hq Pp Pq N1 S1). rewrite Forall_forall in H. specialize (H p' Hp'). rewrite Forall_forall in H. by apply (H q').
Qed.
Lemma check_effects blk : ordered (concat blk) -> well_formed blk -> Forall (fun e => o_eff e = true -> Forall (fun p => pipeline p -> Exists (fun q => p <> q /\ pipeline q /\ share p q) blk ->
    Exists (fun it => pipeline it /\ (it = p \/ share p it) /\ Exists (fun r => o_id r ∈ uses e) it) blk) blk) (concat blk) -> effects_need blk.
Proof.
  intros Ho Hw H l1 p l2 e l3 q l4 E Pp Pq Hs He. pose proof (wf_nodup blk Ho Hw) as Hnb.
  assert (p ∈ blk /\ [e] ∈ blk /\ q ∈ blk) as (Hp & Heb & Hq). { rewrite E, !elem_of_app, !elem_of_cons, !elem_of_app, !elem_of_cons, !elem_of_app, !elem_of_cons. tauto. }
  assert (e ∈ concat blk) as Hec by (apply elem_concat; exists [e]; split; [done|left]).
  rewrite Forall_forall in H. specialize (H e Hec He). rewrite Forall_forall in H. specialize (H p Hp Pp).
  assert (p <> q) as Hpq. { intros ->. rewrite E in Hnb. apply NoDup_app in Hnb as (_ & _ & Hnb). apply NoDup_cons in Hnb as [Hnb _]. apply Hnb. rewrite elem_of_app, elem_of_cons, elem_of_app, elem_of_cons. tauto. }
  destruct (proj1 (Exists_exists _ _) (H (proj2 (Exists_exists _ _) (ex_intro _ q (conj Hq (conj Hpq (conj Pq Hs))))))) as (it & Hit & Pit & Hor & Hr).
  apply Exists_exists in Hr as (r & Hr & Hu). exists it, r. split; [done|]. split; [done|]. split; [done|]. split; [done|]. by apply reach_use.
Qed.
Theorem C64_ex_effects : one_group hx_blk /\ effects_need hx_blk /\ (forall o, o ∈ concat hx_blk -> o_vec o = true -> o_eff o = false) /\ effects (concat hx_blk) = [11; 14; 16].
Proof. split; [apply check_group; dec|]. split; [apply check_effects; [once ord|apply check_wf; dec|dec]|]. split; [pure|done]. Qed.
(** Two pipelines over different matrices *)
Theorem C64_ex_none : let blk := [[vec 10 [0]]; [prt 11 [10]]; [vec 12 [1]]; [prt 13 [12]]] in
  (forall p q, p ∈ blk -> q ∈ blk -> pipeline p -> pipeline q -> p <> q -> ~ share p q) /\ hfuse blk = Ok blk.
Proof.
  split; [|by vm_compute]. intros p q Hp Hq. cut (Forall (fun p => Forall (fun q => pipeline p -> pipeline q -> p <> q -> ~ share p q) [[vec 10 [0]]; [prt 11 [10]]; [vec 12 [1]]; [prt 13 [12]]]) [[vec 10 [0]]; [prt 11 [10]]; [vec 12 [1]]; [prt 13 [12]]]); [|dec].
  intros H. rewrite Forall_forall in H. specialize (H p Hp). rewrite Forall_forall in H. by apply H.
Qed.

(** * Where it fails *)
Lemma not_ordered (l u v : list vop) (y z : vop) : l = u ++ y :: v -> z ∈ v -> o_id z ∈ uses y -> ~ ordered l.
Proof. intros -> Hz Hu (_ & H & _). apply ss_app_iff in H as (_ & H & _). apply StronglySorted_inv in H as [_ H]. rewrite Forall_forall in H. by apply (H z). Qed.

(** The operation behind the first pipeline does not use its result: a = X + 1; t = f(X); u = g(t); b = X * u; print(a); print(b): the new pipeline is put in
    front of the definition of a value it uses. *)
Definition rf1 := [[vec 10 [0]]; [pl 11 [0]]; [pl 12 [11]]; [vec 13 [0; 12]]; [prt 14 [10]]; [prt 15 [13]]].
Definition rf1_R := [(10, 0); (11, 0); (12, 11); (12, 0); (13, 0); (13, 12); (13, 11); (14, 10); (14, 0); (15, 13); (15, 0); (15, 12); (15, 11)].
Theorem C64_followed_refuted : (ordered (concat rf1) /\ well_formed rf1 /\ independent rf1 /\ transitive_sharing rf1 /\ nested_plain rf1) /\
  exists blk', hfuse rf1 = Ok blk' /\ names <$> blk' = [[12]; [10; 13]; [11]; [14]; [15]] /\ ~ ordered (concat blk').
Proof.
  split. { split; [once ord|]. split; [apply check_wf; dec|]. split; [apply (check_ind _ rf1_R); dec|]. split; [apply check_trans; dec|]. apply (check_nested _ rf1_R); dec. }
  eexists. split; [vm_compute; reflexivity|]. split; [by vm_compute|]. eapply (not_ordered _ [] _ (pl 12 [11]) (pl 11 [0])); [reflexivity|vm_compute; do 2 right; left|left].
Qed.
(** Sharing is not transitive: print(sum(X + Z)); print(sum(X * Y)); print(sum(Y)); print(sum(Z)): after the first one was fused with the second and the
    fourth one, the loop looks for the third one behind it and leaves the block. *)
Definition rf2 := [[vec 10 [0; 2]]; [prt 11 [10]]; [vec 12 [0; 1]]; [prt 13 [12]]; [vec 14 [1]]; [prt 15 [14]]; [vec 16 [2]]; [prt 17 [16]]].
Definition rf2_R := [(10, 0); (10, 2); (11, 10); (11, 0); (11, 2); (12, 0); (12, 1); (13, 12); (13, 0); (13, 1); (14, 1); (15, 14); (15, 1); (16, 2); (17, 16); (17, 2)].
Theorem C64_transitive_refuted : ordered (concat rf2) /\ well_formed rf2 /\ independent rf2 /\ nested_plain rf2 /\ followed rf2 /\ hfuse rf2 = UB.
Proof. split; [once ord|]. split; [apply check_wf; dec|]. split; [apply (check_ind _ rf2_R); dec|]. split; [apply (check_nested _ rf2_R); dec|]. split; [apply (check_followed _ rf2_R); dec|]. by vm_compute. Qed.
(** A pipeline needs the result of another one as a whole: print(sum(X)); Y = X + 1; print(X @ Y): the three are fused, and the pipeline
    needs its own result. *)
Definition rf3 := [[vec 10 [0]]; [prt 11 [10]]; [vec 12 [0]]; [pl 13 [12]]; [mkOp 14 [0; 12] [true; false] true true [] false]; [prt 15 [14; 13]]].
Definition rf3_R := [(10, 0); (11, 10); (11, 0); (12, 0); (13, 12); (13, 0); (14, 0); (14, 12); (15, 14); (15, 13); (15, 0); (15, 12)].
Theorem C64_independent_refuted : ordered (concat rf3) /\ well_formed rf3 /\ transitive_sharing rf3 /\ nested_plain rf3 /\ followed rf3 /\ hfuse rf3 = UB.
Proof. split; [once ord|]. split; [apply check_wf; dec|]. split; [apply check_trans; dec|]. split; [apply (check_nested _ rf3_R); dec|]. split; [apply (check_followed _ rf3_R); dec|]. by vm_compute. Qed.
(** Side effects: print(sum(X)); print(1); print(sum(X + 1)): the 1 is printed first. *)
Definition rf4 := [[vec 10 [0]]; [prt 11 [10]]; [prt 12 []]; [vec 13 [0]]; [prt 14 [13]]].
Definition rf4_R := [(10, 0); (11, 10); (11, 0); (13, 0); (14, 13); (14, 0)].
Theorem C64_effects_refuted : (ordered (concat rf4) /\ well_formed rf4 /\ independent rf4 /\ transitive_sharing rf4 /\ nested_plain rf4 /\ followed rf4 /\ one_group rf4) /\
  exists blk', hfuse rf4 = Ok blk' /\ effects (concat rf4) = [11; 12; 14] /\ effects (concat blk') = [12; 11; 14].
Proof. split; [hyps rf4_R; split; [apply (check_followed _ rf4_R); dec|apply check_group; dec]|]. eexists. split; [vm_compute; reflexivity|]. by split; vm_compute. Qed.
(** A control structure between the two pipelines uses the result of the first one, which the search for operations that depend on it does
    not see: s = sum(X); print(s); if(c) print(s); print(sum(X + 1)): the control structure is moved in front of the pipeline. *)
Definition rf5 := [[vec 10 [0]]; [prt 11 [10]]; [ctl 12 [1] [10]]; [vec 13 [0]]; [prt 14 [13]]].
Definition rf5_R := [(10, 0); (11, 10); (11, 0); (12, 1); (12, 10); (12, 0); (13, 0); (14, 13); (14, 0)].
Theorem C64_nested_refuted : (ordered (concat rf5) /\ well_formed rf5 /\ independent rf5 /\ transitive_sharing rf5 /\ followed rf5) /\
  exists blk', hfuse rf5 = Ok blk' /\ names <$> blk' = [[12]; [10; 13]; [11]; [14]] /\ ~ ordered (concat blk').
Proof.
  split. { split; [once ord|]. split; [apply check_wf; dec|]. split; [apply (check_ind _ rf5_R); dec|]. split; [apply check_trans; dec|]. apply (check_followed _ rf5_R); dec. }
  eexists. split; [vm_compute; reflexivity|]. split; [by vm_compute|]. eapply (not_ordered _ [] _ (ctl 12 [1] [10]) (vec 10 [0])); [reflexivity|left|right; left].
Qed.

Print Assumptions C64_fuse.
Print Assumptions C64_effects.
Print Assumptions C64_none.
Print Assumptions C64_followed_refuted.
Print Assumptions C64_transitive_refuted.
Print Assumptions C64_independent_refuted.
Print Assumptions C64_effects_refuted.
Print Assumptions C64_nested_refuted.
