(** C57: fusing operations into vectorized pipelines keeps the program (and where it does not). *)
From stdpp Require Import base numbers sorting list.
From Coq Require Import Lia.
From Verif Require Import CppBase OrderProofs FusionModel FusionSpec FusionProofs.

(** Two valid orders of the same operations compute the same values. *)
Theorem C57_reorder {V : Type} (f : nat -> list V -> V) l k env : l ≡ₚ k -> ordered l -> ordered k -> forall x, eval f l env x = eval f k env x.
Proof. apply eval_perm. Qed.

(** The pass neither loses nor duplicates an operation. *)
Theorem C57_conserve ops blk : ordered ops -> vectorize ops = Ok blk -> concat blk ≡ₚ ops.
Proof. apply vectorize_perm. Qed.

(** When every value is used at most once, the pass always succeeds, leaves a valid program that computes the same values and has the same side
    effects in the same order, fuses each row-wise producer with its consumer, fuses nothing else than vectorizable operations, and never makes an
    operation use a value of its own pipeline that it needs as a whole. *)
Theorem C57_fuse ops : ordered ops -> used_once ops -> (forall o, o ∈ ops -> o_vec o = true -> o_eff o = false) ->
  exists blk, vectorize ops = Ok blk /\ concat blk ≡ₚ ops /\ ordered (concat blk) /\ effects (concat blk) = effects ops /\
    (forall (V : Type) (f : nat -> list V -> V) env x, eval f (concat blk) env x = eval f ops env x) /\
    (forall v c, v ∈ ops -> c ∈ ops -> o_vec v = true -> o_vec c = true -> o_comb c = true -> (o_id c, true) ∈ zip (o_args v) (o_rows v) -> exists it, it ∈ blk /\ v ∈ it /\ c ∈ it) /\
    (forall it, it ∈ blk -> (exists o, it = [o]) \/ forall o, o ∈ it -> o_vec o = true) /\
    (forall it v c, it ∈ blk -> v ∈ it -> c ∈ it -> o_id c ∈ uses v -> (o_id c, true) ∈ zip (o_args v) (o_rows v) /\ o_comb c = true).
Proof.
  intros Ho Hu Hp. destruct (vectorize_tree ops Ho Hu Hp) as (blk & H1 & H2 & H3 & H4 & H5 & H6). exists blk. repeat (split; [done|]). split; [|done]. intros V f env x. by apply eval_perm.
Qed.

(** Creating one pipeline, whatever its values are used for: if its operations are in the reverse order of the block, no other operation both needs
    one of them and is needed by one of them, and no control structure between them uses a value defined between them, then the result is a valid
    program that computes the same values; the side effects keep their order unless an operation between them has side effects and needs one of them. *)
Theorem C57_step blk front tl lst s e : let pipe := front :: tl in
  ordered (concat blk) -> NoDup pipe -> (forall v, v ∈ pipe -> exists o, [o] ∈ blk /\ o_id o = v) ->
  last pipe = Some lst -> defines blk s lst -> defines blk e front ->
  StronglySorted (fun a b => forall i j, defines blk i a -> defines blk j b -> j < i) pipe ->
  (forall i p q, ~ in_pipe blk pipe i -> in_pipe blk pipe p -> in_pipe blk pipe q -> ~ (needs blk i p /\ needs blk q i)) ->
  (forall i it y a j, s < i < e -> ~ in_pipe blk pipe i -> blk !! i = Some it -> y ∈ it -> a ∈ o_nested y -> defines blk j a -> j < s) ->
  exists blk', create blk pipe = Ok blk' /\ concat blk' ≡ₚ concat blk /\ ordered (concat blk') /\
    (exists it, it ∈ blk' /\ names it = reverse pipe) /\
    (forall (V : Type) (f : nat -> list V -> V) env x, eval f (concat blk') env x = eval f (concat blk) env x) /\
    ((forall o, o ∈ concat blk -> o_id o ∈ pipe -> o_eff o = false) ->
     (forall i p it y, s < i < e -> ~ in_pipe blk pipe i -> in_pipe blk pipe p -> blk !! i = Some it -> y ∈ it -> o_eff y = true -> ~ needs blk i p) ->
     effects (concat blk') = effects (concat blk)).
Proof.
  intros pipe Ho Hn Hm Hl (its & Hs1 & Hs2) (ite & He1 & He2) Hrev Hconv Hnest. pose proof (proj1 Ho) as Hnd.
  assert (members_ok blk pipe) as Hmo by done. assert (pos blk (default 0 (last pipe)) = Some s) as Hs by (rewrite Hl; by eapply pos_lookup). assert (pos blk front = Some e) as He by (by eapply pos_lookup).
  assert (forall i v, pos blk v = Some i -> defines blk i v) as Hpd by (intros i v H; by apply pos_inv).
  assert (StronglySorted (fun a b => forall i j, pos blk a = Some i -> pos blk b = Some j -> j < i) pipe) as Hrev'.
  { clear - Hrev Hpd. induction Hrev as [|x l H1 IH H2]; constructor; [by apply IH|]. rewrite Forall_forall in H2 |- *. intros y Hy i j Hi Hj. eapply (H2 y Hy); by apply Hpd. }
  assert (forall i p q, ~ member blk front tl i -> member blk front tl p -> member blk front tl q -> needs blk i p -> needs blk q i -> False) as Hconv' by (intros i p q A B C D E; by apply (Hconv i p q A B C)).
  assert (forall i it y a j, s < i < e -> ~ member blk front tl i -> blk !! i = Some it -> y ∈ it -> a ∈ o_nested y -> pos blk a = Some j -> j < s) as Hnest' by (intros i it y a j A B C D E F; eapply (Hnest i it y a j); try done; by apply Hpd).
  eexists. split; [exact (create_shared blk Ho front tl s e Hmo Hs He Hrev' Hnest')|]. pose proof (moved_perm blk Ho front tl s e Hmo Hs He Hrev' Hnest') as P. pose proof (moved_ordered blk Ho front tl s e Hmo Hs He Hrev' Hconv' Hnest') as O. split; [done|]. split; [done|]. split; [|split].
  - exists (omap (op_of blk) (reverse pipe)). split; [rewrite !elem_of_app, elem_of_list_singleton; tauto|]. eapply members_ops; [done|]. split; [by apply NoDup_reverse|]. intros v Hv. rewrite elem_of_reverse in Hv. by apply Hm.
  - intros V f env x. by apply eval_perm.
  - intros Hpure Heff. exact (moved_effects blk Ho front tl s e Hmo Hs He Hrev' Hnest' Hpure Heff).
Qed.

(** * Concrete cases *)
Definition vec (i : nat) (a : list nat) := mkOp i a (replicate (length a) true) true true [] false.
Definition eff (i : nat) (a : list nat) := mkOp i a [] false false [] true.
Definition ctl (i : nat) (a n : list nat) := mkOp i a [] false false n true.
Ltac dec := apply (bool_decide_unpack _); vm_compute; exact I.
Ltac ord := split; [dec|split; [repeat (constructor; [|dec]); constructor|dec]].
Ltac pure := intros o Hin; repeat (apply elem_of_cons in Hin as [-> | Hin]); [done..|by apply elem_of_nil in Hin].

(** a = f(X); print(1); b = g(Y); c = h(a, b); print(c): a, b and c are fused, nothing else moves. *)
Definition ex_ops := [vec 10 [0]; eff 11 []; vec 12 [1]; vec 13 [10; 12]; eff 14 [13]].
Theorem C57_ex : ordered ex_ops /\ used_once ex_ops /\ (forall o, o ∈ ex_ops -> o_vec o = true -> o_eff o = false) /\
  (let* b := vectorize ex_ops in Ok (names <$> b)) = Ok [[11]; [12; 10; 13]; [14]].
Proof. split; [ord|]. split; [dec|]. split; [pure|]. by vm_compute. Qed.
(** A shared value: a = f(X); m = sum(Y); b = g(a); s = sum(a); the sum needs the pipeline and moves behind it. *)
Definition ex_blk := [[vec 10 [0]]; [eff 11 [1]]; [mkOp 12 [10] [] false false [] false]; [vec 13 [10]]; [eff 14 [13]]].
Theorem C57_ex_step : ordered (concat ex_blk) /\ (let* b := create ex_blk [13; 10] in Ok (names <$> b)) = Ok [[11]; [10; 13]; [12]; [14]].
Proof. split; [ord|]. by vm_compute. Qed.
(** The hypotheses of [C57_step] hold for it *)
Theorem C57_ex_step_hyps : let blk := ex_blk in let pipe := [13; 10] in
  (forall v, v ∈ pipe -> exists o, [o] ∈ blk /\ o_id o = v) /\ defines blk 0 10 /\ defines blk 3 13 /\
  StronglySorted (fun a b => forall i j, defines blk i a -> defines blk j b -> j < i) pipe /\
  (forall i p q, ~ in_pipe blk pipe i -> in_pipe blk pipe p -> in_pipe blk pipe q -> ~ (needs blk i p /\ needs blk q i)).
Proof.
  intros blk pipe. assert (forall i v, defines blk i v -> (i = 0 /\ v = 10) \/ (i = 1 /\ v = 11) \/ (i = 2 /\ v = 12) \/ (i = 3 /\ v = 13) \/ (i = 4 /\ v = 14)) as Hd.
  { intros i v (it & Hi & Hv). do 5 (destruct i as [|i]; [cbn in Hi; injection Hi as <-; apply elem_of_list_singleton in Hv; cbn in Hv; lia|]). done. }
  split; [|split; [|split; [|split]]].
  - intros v Hv. apply elem_of_cons in Hv as [->|Hv]; [exists (vec 13 [10]); split; [|done]; do 3 right; left|]. apply elem_of_list_singleton in Hv as ->. exists (vec 10 [0]). split; [left|done].
  - exists [vec 10 [0]]. split; [done|left].
  - exists [vec 13 [10]]. split; [done|left].
  - constructor; [constructor; [constructor|by constructor]|]. constructor; [|by constructor]. intros i j Hi%Hd Hj%Hd. lia.
  - assert (forall i j, needs blk i j -> j < i /\ (j = 0 /\ (i = 2 \/ i = 3 \/ i = 4) \/ j = 3 /\ i = 4)) as Hneed.
    { induction 1 as [i j it y z itj Hi Hj Hy Hz Hu|i j k _ IH1 _ IH2]; [|lia].
      do 5 (destruct i as [|i]; [cbn in Hi; injection Hi as <-; apply elem_of_list_singleton in Hy; subst y; do 5 (destruct j as [|j]; [cbn in Hj; injection Hj as <-; apply elem_of_list_singleton in Hz; subst z; cbn in Hu; repeat (apply elem_of_cons in Hu as [Hu|Hu]; [lia|]); by apply elem_of_nil in Hu|]); done|]). done. }
    intros i p q Hi Hp Hq [H1 H2]. apply Hneed in H1, H2. assert (q = 0 \/ q = 3) as Hq'. { destruct Hq as (it & v & Hq & Hv & Hvp). destruct (Hd q v) as [?|[?|[?|[?|?]]]]; [by exists it|lia|exfalso..| |exfalso]; destruct_and?; subst; try lia; repeat (apply elem_of_cons in Hvp as [?|Hvp]; [lia|]); by apply elem_of_nil in Hvp. }
    lia.
Qed.

(** * Where it does not hold *)
(** Side effects change their order: a = f(X); print(a); print(1); b = g(a). *)
Definition bad_effects := [vec 10 [0]; eff 11 [10]; eff 12 []; vec 13 [10]; eff 14 [13]].
Theorem C57_effects_refuted : exists blk, ordered bad_effects /\ (forall o, o ∈ bad_effects -> o_vec o = true -> o_eff o = false) /\ vectorize bad_effects = Ok blk /\ effects bad_effects = [11; 12; 14] /\ effects (concat blk) = [12; 11; 14].
Proof. eexists. split; [ord|]. split; [pure|]. split; [by vm_compute|]. by vm_compute. Qed.
(** A value is used before it is defined: a = f(X); s = sum(a); b = g(Y); c = h(a, b). *)
Definition bad_order := [vec 10 [0]; eff 11 [10]; vec 12 [1]; vec 13 [10; 12]].
Lemma not_ordered l i j y z : l !! i = Some y -> l !! j = Some z -> i < j -> o_id z ∈ uses y -> ~ ordered l.
Proof. intros Hi Hj Hij Hu (_ & Hs & _). by apply (ss_lookup _ _ _ _ _ _ Hs Hi Hj Hij). Qed.
Theorem C57_order_refuted : exists blk, ordered bad_order /\ (forall o, o ∈ bad_order -> o_vec o = true -> o_eff o = false) /\ vectorize bad_order = Ok blk /\ ~ ordered (concat blk).
Proof.
  eexists. split; [ord|]. split; [pure|]. split; [by vm_compute|]. apply (not_ordered _ 0 2 (eff 11 [10]) (vec 10 [0])); [done|done|lia|]. cbn. left.
Qed.
(** ... also when only a control structure between the operations uses the value: a = f(X); b = g(a); if(p) print(a); c = h(b). *)
Definition bad_nested := [vec 10 [0]; vec 11 [10]; ctl 12 [] [10]; vec 13 [11]].
Theorem C57_nested_refuted : exists blk, ordered bad_nested /\ (forall o, o ∈ bad_nested -> o_vec o = true -> o_eff o = false) /\ vectorize bad_nested = Ok blk /\ ~ ordered (concat blk).
Proof.
  eexists. split; [ord|]. split; [pure|]. split; [by vm_compute|]. apply (not_ordered _ 0 1 (ctl 12 [] [10]) (vec 10 [0])); [done|done|lia|]. cbn. left.
Qed.
(** Two pipelines that share an operation are merged although an operation outside needs one part and is needed by the other:
    no order of the result is valid. a = f(X); b = g(Y); s = sum(a); c = h(a, b); d = k(b, s). *)
Definition bad_cycle := [vec 10 [0]; vec 11 [1]; eff 12 [10]; vec 13 [10; 11]; vec 14 [11; 12]].
Theorem C57_cycle_refuted : exists blk, ordered bad_cycle /\ vectorize bad_cycle = Ok blk /\ forall blk', blk' ≡ₚ blk -> ~ ordered (concat blk').
Proof.
  eexists. split; [ord|]. split; [by vm_compute|]. intros blk2 HP. symmetry in HP. apply Permutation_length_2_inv in HP as [->| ->].
  - apply (not_ordered _ 0 3 (eff 12 [10]) (vec 10 [0])); [done|done|lia|]. cbn. left.
  - apply (not_ordered _ 1 4 (vec 14 [11; 12]) (eff 12 [10])); [done|done|lia|]. cbn. right. left.
Qed.
(** A value used twice by the same pipeline: b = a * a, or b = f(a); c = g(b, a). The list of operations is inserted into itself. *)
Theorem C57_twice_refuted : ordered [vec 10 [0]; vec 11 [10; 10]] /\ vectorize [vec 10 [0]; vec 11 [10; 10]] = UB /\
  ordered [vec 10 [0]; vec 11 [10]; vec 12 [11; 10]] /\ vectorize [vec 10 [0]; vec 11 [10]; vec 12 [11; 10]] = UB.
Proof. split; [ord|]. split; [by vm_compute|]. split; [ord|]. by vm_compute. Qed.
(** A value that is used row by row and as a whole by the same operation, as in v = a @ a: inside the pipeline, the operation gets
    only some rows of the operand it needs as a whole. *)
Definition mm (i a b : nat) := mkOp i [a; b] [true; false] true true [] false.
Theorem C57_whole_refuted : let ops := [vec 10 [0]; mm 11 10 10] in ordered ops /\ vectorize ops = Ok [[vec 10 [0]; mm 11 10 10]].
Proof. split; [ord|]. by vm_compute. Qed.

Print Assumptions C57_conserve.
Print Assumptions C57_fuse.
Print Assumptions C57_step.
