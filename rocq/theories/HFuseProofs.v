(** Proofs about horizontal fusion. *)
From stdpp Require Import base numbers sorting list.
From Coq Require Import Lia.
From Verif Require Import CppBase OrderProofs FusionModel FusionSpec FusionProofs HFuseModel HFuseSpec.

Implicit Types (blk : list (list vop)) (it p q : list vop) (y z r f : vop).

Global Instance vop_eq_dec : EqDecision vop.
Proof. solve_decision. Defined.

(** * Reachability *)
Lemma reach_mono l k x a : (forall y, y ∈ l -> y ∈ k) -> reach l x a -> reach k x a.
Proof. intros H. induction 1; [by apply reach_use; [apply H|]|eapply reach_via; eauto]. Qed.
Lemma reach_perm l k x a : l ≡ₚ k -> reach l x a <-> reach k x a.
Proof. intros H. split; apply reach_mono; intros y Hy; [by rewrite <- H|by rewrite H]. Qed.

Lemma is_pipe_iff blk it : well_formed blk -> it ∈ blk -> (is_pipe it = true <-> pipeline it).
Proof.
  intros Hw Hi. destruct (Hw it Hi) as [[Hn Hp]|(o & -> & Ho)].
  - destruct it as [|o it]; [done|]. split; [done|]. intros _. cbn. apply Hp. left.
  - cbn. rewrite Ho. split; [done|]. intros [_ H]. rewrite <- Ho. apply H. left.
Qed.
Lemma plain_not_pipe it : plain it -> pipeline it -> False.
Proof. intros (o & -> & Ho) [_ H]. rewrite (H o) in Ho by left. done. Qed.
Lemma in_block blk i it y : blk !! i = Some it -> y ∈ it -> y ∈ concat blk.
Proof. intros H Hy. apply elem_concat. exists it. split; [by eapply elem_of_list_lookup_2|done]. Qed.


Definition direct (blk : list (list vop)) (i j : nat) : Prop := exists it y z itj, blk !! i = Some it /\ blk !! j = Some itj /\ y ∈ it /\ z ∈ itj /\ o_id z ∈ uses y.
Inductive path (blk : list (list vop)) : nat -> nat -> Prop :=
  | path_one i j : direct blk i j -> path blk i j
  | path_more i j k : direct blk i j -> path blk j k -> path blk i k.
Lemma path_app blk i j k : path blk i j -> path blk j k -> path blk i k.
Proof. induction 1 as [i j H|i j' j H _ IH]; intros H2; [by eapply path_more|eapply path_more; [done|by apply IH]]. Qed.
Lemma needs_path blk i j : needs blk i j -> path blk i j.
Proof. induction 1 as [i j it y z itj Hi Hj Hy Hz Hu|i j k _ IH1 _ IH2]; [apply path_one; by exists it, y, z, itj|by eapply path_app]. Qed.

Lemma path_reach blk i t : well_formed blk -> independent blk -> path blk i t -> forall it p, blk !! i = Some it -> blk !! t = Some p -> pipeline p ->
  exists y r, y ∈ it /\ r ∈ p /\ reach (concat blk) (o_id y) (o_id r).
Proof.
  intros Hw Hin. induction 1 as [i j (it & y & z & itj & Hi & Hj & Hy & Hz & Hu)|i j k (it & y & z & itj & Hi & Hj & Hy & Hz & Hu) _ IH]; intros it' p Hi' Hp Hpp.
  - assert (it' = it) as -> by congruence. assert (p = itj) as -> by congruence. exists y, z. split; [done|]. split; [done|]. apply reach_use; [by eapply (in_block _ _ _ _ Hi)|done].
  - assert (it' = it) as -> by congruence. destruct (IH itj p Hj Hp Hpp) as (y' & r & Hy' & Hr & Hre). assert (itj ∈ blk) as Hjb by (by eapply elem_of_list_lookup_2). destruct (Hw itj Hjb) as [Hpl|(o & -> & Hov)].
    + destruct (decide (itj = p)) as [->|Hne].
      * exists y, z. split; [done|]. split; [done|]. apply reach_use; [by eapply (in_block _ _ _ _ Hi)|done].
      * exfalso. apply (Hin itj p y' r); try done. by eapply elem_of_list_lookup_2.
    + apply elem_of_list_singleton in Hy' as ->. apply elem_of_list_singleton in Hz as ->. exists y, r. split; [done|]. split; [done|]. apply (reach_via _ y o); try done; [by eapply (in_block _ _ _ _ Hi)|eapply in_block; [exact Hj|left]].
Qed.
Lemma op_dep_reach blk i it h t p : ordered (concat blk) -> well_formed blk -> independent blk -> blk !! i = Some it -> pos blk h = Some t -> blk !! t = Some p -> pipeline p ->
  op_dep blk it h = true -> exists y r, y ∈ it /\ r ∈ p /\ reach (concat blk) (o_id y) (o_id r).
Proof. intros Ho Hw Hin Hi Ht Hp Hpp Hd. eapply path_reach; try done. apply needs_path. by eapply op_dep_needs. Qed.

Lemma op_dep_same blk it (x x2 : nat) : pos blk x = pos blk x2 -> op_dep blk it x = op_dep blk it x2.
Proof. intros H. unfold op_dep. by rewrite H. Qed.
Lemma no_self l y : ordered l -> y ∈ l -> o_id y ∉ uses y.
Proof. intros (_ & _ & H) Hy. rewrite Forall_forall in H. by apply H. Qed.
Lemma same_op l y z : ordered l -> y ∈ l -> z ∈ l -> o_id y = o_id z -> y = z.
Proof.
  intros (Hn & _) Hy Hz E. unfold names in Hn. apply elem_of_list_lookup in Hy as (i & Hi), Hz as (j & Hj).
  assert (i = j) as ->. { eapply (NoDup_lookup (o_id <$> l)); [done|by rewrite list_lookup_fmap, Hi|rewrite list_lookup_fmap, Hj; cbn; by rewrite E]. } congruence.
Qed.
Lemma reach_op_dep blk y r p t : ordered (concat blk) -> well_formed blk -> nested_plain blk -> [y] ∈ blk -> o_vec y = false ->
  reach (concat blk) (o_id y) (o_id r) -> blk !! t = Some p -> pipeline p -> r ∈ p -> op_dep blk [y] (head_id p) = true.
Proof.
  intros Ho Hw Hne Hyb Hyv Hre Ht Hpp Hr. assert (r ∈ concat blk) as Hrc by (by eapply in_block). assert (o_vec r = true) as Hrv by (by apply Hpp).
  assert (pos blk (o_id r) = Some t) as Hpr by (eapply pos_lookup; [apply Ho|done|by apply elem_of_list_fmap_1]).
  assert (pos blk (head_id p) = Some t) as Hph. { eapply pos_lookup; [apply Ho|done|]. destruct Hpp as [Hn _]. destruct p; [done|]. left. }
  rewrite (op_dep_same blk [y] (head_id p) (o_id r)) by congruence.
  remember (o_id y) as x eqn:Ex. remember (o_id r) as a eqn:Ea. revert y Hyb Hyv Ex. induction Hre as [y' a Hy' Ha|y' z a Hy' Hz Hzu Hzv Hre IH]; intros y Hyb Hyv Ex.
  - assert (y ∈ concat blk) as Hyc by (apply elem_concat; exists [y]; split; [done|left]). assert (y' = y) as -> by (by apply (same_op _ _ _ Ho)). subst a. apply elem_of_list_lookup in Hyb as (i & Hi).
    eapply op_dep_direct; [done|done| |by exists t]. apply in_operands. split.
    + cbn. intros E%elem_of_list_singleton. assert (r = y) as -> by (by apply (same_op _ _ _ Ho)). congruence.
    + exists y. split; [left|]. unfold uses in Ha. apply elem_of_app in Ha as [?|Ha]; [done|]. exfalso. by destruct (Hne y (o_id r) r Hyc Ha Hrc Hrv).
  - assert (y ∈ concat blk) as Hyc by (apply elem_concat; exists [y]; split; [done|left]). assert (y' = y) as -> by (by apply (same_op _ _ _ Ho)). subst a.
    pose proof Hz as Hzb. apply elem_concat in Hzb as (itz & Hitz & Hzz). destruct (Hw itz Hitz) as [[_ Hpl]|(o & -> & Hov)]; [rewrite Hpl in Hzv by done; done|]. apply elem_of_list_singleton in Hzz as ->.
    pose proof Hyb as Hyi. apply elem_of_list_lookup in Hyi as (i & Hi). pose proof Hitz as Hzi. apply elem_of_list_lookup in Hzi as (j & Hj).
    eapply (op_dep_step blk i [y] j [o] (o_id o)); try done.
    + apply in_operands. split.
      * cbn. intros E%elem_of_list_singleton. assert (o = y) as -> by (by apply (same_op _ _ _ Ho)). by apply (no_self _ _ Ho Hyc).
      * exists y. split; [left|]. unfold uses in Hzu. apply elem_of_app in Hzu as [?|Hzu]; [done|]. exfalso. by destruct (Hne y (o_id o) r Hyc Hzu Hrc Hrv).
    + eapply pos_lookup; [apply Ho|done|left].
    + by apply IH.
Qed.

(** * Orders *)
Definition unused (y z : vop) : Prop := o_id z ∉ uses y.
Definition unused_it (it it' : list vop) : Prop := forall y z, y ∈ it -> z ∈ it' -> unused y z.
Lemma ss_concat blk : StronglySorted unused (concat blk) <-> StronglySorted unused_it blk /\ forall it, it ∈ blk -> StronglySorted unused it.
Proof.
  induction blk as [|it blk IH]; cbn [concat].
  - split; [|intros _; constructor]. intros _. split; [constructor|]. intros it H. by apply elem_of_nil in H.
  - rewrite ss_app_iff, IH. split.
    + intros (H1 & (H2 & H3) & H4). split.
      * constructor; [done|]. rewrite Forall_forall. intros it' Hit y z Hy Hz. apply H4; [done|]. apply elem_concat. by exists it'.
      * intros it' [->|Hit]%elem_of_cons; [done|by apply H3].
    + intros (H1 & H2). apply StronglySorted_inv in H1 as [H1 H3]. rewrite Forall_forall in H3. split; [apply H2; left|]. split; [split; [done|]; intros it' Hit; apply H2; by right|].
      intros y z Hy (it' & Hit & Hz)%elem_concat. by apply (H3 it' Hit).
Qed.
Lemma ss_filter {X} (R : X -> X -> Prop) (P : X -> Prop) `{forall x, Decision (P x)} l : StronglySorted R l -> StronglySorted R (filter P l).
Proof.
  induction 1 as [|x l H1 IH H2]; [constructor|]. rewrite filter_cons. destruct (decide (P x)); [|done]. constructor; [done|]. rewrite Forall_forall in H2 |- *. intros y [_ Hy]%elem_of_list_filter. by apply H2.
Qed.

(** The order of a block in which the operations between two items are split into those that stay before and those that go behind *)
Lemma place_ordered pre p rg q post (dep : list vop -> bool) : ordered (concat (pre ++ p :: rg ++ q :: post)) ->
  (forall b, b ∈ rg -> dep b = false -> unused_it b p) ->
  (forall a b, a ∈ rg -> b ∈ rg -> dep a = true -> dep b = false -> unused_it b a) ->
  (forall a, a ∈ rg -> dep a = true -> unused_it q a) ->
  let blk' := pre ++ filter (fun it => dep it = false) rg ++ (p ++ q) :: filter (fun it => dep it = true) rg ++ post in
  concat blk' ≡ₚ concat (pre ++ p :: rg ++ q :: post) /\ ordered (concat blk').
Proof.
  intros Ho Hbp Hba Hqa blk'. assert (concat blk' ≡ₚ concat (pre ++ p :: rg ++ q :: post)) as HP.
  { assert (concat rg ≡ₚ concat (filter (fun it => dep it = false) rg) ++ concat (filter (fun it => dep it = true) rg)) as Hrg.
    { clear. induction rg as [|it rg IH]; [done|]. rewrite !filter_cons. destruct (dep it) eqn:E.
      - rewrite decide_False by done. rewrite decide_True by done. cbn [concat]. rewrite IH. apply Permutation_app_swap_app.
      - rewrite decide_True by done. rewrite decide_False by done. cbn [concat]. rewrite IH. by rewrite app_assoc. }
    subst blk'. repeat (rewrite !concat_app; cbn [concat]). apply Permutation_app_head. rewrite Hrg. rewrite <- !app_assoc.
    rewrite Permutation_app_swap_app. apply Permutation_app_head, Permutation_app_head. apply Permutation_app_swap_app. }
  split; [done|]. destruct Ho as (Hn & Hs & Hf). split; [by rewrite (names_perm _ _ HP)|]. split; [|rewrite Forall_forall in Hf |- *; intros y Hy; apply Hf; by rewrite <- HP].
  change (StronglySorted unused (concat blk')). apply ss_concat in Hs as [Hs Hi]. apply ss_concat.
  apply ss_app_iff in Hs as (S1 & S2 & S3). apply StronglySorted_inv in S2 as [S2 S4]. rewrite Forall_forall in S4. apply ss_app_iff in S2 as (S5 & S6 & S7). apply StronglySorted_inv in S6 as [S6 S8]. rewrite Forall_forall in S8.
  assert (forall it, it ∈ filter (fun it => dep it = false) rg <-> dep it = false /\ it ∈ rg) as HB by (intros; by rewrite elem_of_list_filter).
  assert (forall it, it ∈ filter (fun it => dep it = true) rg <-> dep it = true /\ it ∈ rg) as HA by (intros; by rewrite elem_of_list_filter).
  assert (forall it, unused_it p it -> unused_it q it -> unused_it (p ++ q) it) as Hl by (intros it H1 H2 y z [?|?]%elem_of_app Hz; [by apply H1|by apply H2]).
  assert (forall it, unused_it it p -> unused_it it q -> unused_it it (p ++ q)) as Hr by (intros it H1 H2 y z Hz [?|?]%elem_of_app; [by apply H1|by apply H2]).
  split.
  - subst blk'. apply ss_app_iff. split; [done|]. split.
    + apply ss_app_iff. split; [by apply ss_filter|]. split.
      * constructor.
        -- apply ss_app_iff. split; [by apply ss_filter|]. split; [done|]. intros a x [_ Ha]%HA Hx. apply S7; [done|by right].
        -- rewrite Forall_forall. intros x [[Ed Hx]%HA|Hx]%elem_of_app.
           ++ apply Hl; [apply S4, elem_of_app; by left|by apply Hqa].
           ++ apply Hl; [apply S4, elem_of_app; right; by right|by apply S8].
      * intros b x [Eb Hb]%HB [->|[[Ea Ha]%HA|Hx]%elem_of_app]%elem_of_cons.
        -- apply Hr; [by apply Hbp|]. apply S7; [done|left].
        -- by apply Hba.
        -- apply S7; [done|by right].
    + intros x y Hx [[_ Hy]%HB|[->|[[_ Hy]%HA|Hy]%elem_of_app]%elem_of_cons]%elem_of_app.
      * apply S3; [done|]. right. apply elem_of_app. by left.
      * apply Hr; apply S3; try done; [left|]. right. apply elem_of_app. right. left.
      * apply S3; [done|]. right. apply elem_of_app. by left.
      * apply S3; [done|]. right. apply elem_of_app. right. by right.
  - intros it Hit. assert (it ∈ pre ++ p :: rg ++ q :: post \/ it = p ++ q) as [H| ->].
    { subst blk'. rewrite !elem_of_app, elem_of_cons, HB, elem_of_app, HA in Hit. rewrite elem_of_app, elem_of_cons, elem_of_app, elem_of_cons. tauto. }
    + by apply Hi.
    + apply ss_app_iff. split; [apply Hi, elem_of_app; right; left|]. split; [apply Hi, elem_of_app; right; right; apply elem_of_app; right; left|].
      apply S4, elem_of_app. right. left.
Qed.

(** * Lists *)
Lemma nodup_split {X} (x : X) : forall l1 k1 l2 k2, NoDup (l1 ++ x :: l2) -> l1 ++ x :: l2 = k1 ++ x :: k2 -> l1 = k1 /\ l2 = k2.
Proof.
  induction l1 as [|a l1 IH]; intros [|b k1] l2 k2 Hn E; cbn in *.
  - by injection E as ->.
  - injection E as -> E. apply NoDup_cons in Hn as [Hn _]. exfalso. apply Hn. rewrite E. apply elem_of_app. right. left.
  - injection E as -> E. apply NoDup_cons in Hn as [Hn _]. exfalso. apply Hn. apply elem_of_app. right. left.
  - injection E as -> E. apply NoDup_cons in Hn as [_ Hn]. destruct (IH k1 l2 k2 Hn E) as [-> ->]. done.
Qed.
Lemma split_after {X} (x : X) : forall l1 a l2 b, x ∉ a -> l1 ++ x :: l2 = a ++ b -> exists v, b = v ++ x :: l2.
Proof.
  induction l1 as [|y l1 IH]; intros [|z a] l2 b Hx E; cbn in *.
  - by exists [].
  - injection E as -> E. exfalso. apply Hx. left.
  - exists (y :: l1). by rewrite <- E.
  - injection E as -> E. eapply IH; [|exact E]. intros H. apply Hx. by right.
Qed.
Lemma slices {X} (pre : list X) (p : X) (rg : list X) (q : X) (post : list X) : let blk := pre ++ p :: rg ++ q :: post in
  take (length pre) blk = pre /\ take (length pre + S (length rg) - S (length pre)) (drop (S (length pre)) blk) = rg /\
  drop (S (length pre + S (length rg))) blk = post /\ blk !! length pre = Some p /\ blk !! (length pre + S (length rg)) = Some q.
Proof.
  cbn. split; [by rewrite take_app|]. assert (drop (S (length pre)) (pre ++ p :: rg ++ q :: post) = rg ++ q :: post) as E.
  { rewrite drop_app_ge by lia. by replace (S (length pre) - length pre) with 1 by lia. }
  split; [|split; [|split]].
  - rewrite E. replace (length pre + S (length rg) - S (length pre)) with (length rg) by lia. by rewrite take_app.
  - replace (S (length pre + S (length rg))) with (S (length rg) + S (length pre)) by lia. rewrite Nat.add_comm, <- drop_drop, E. rewrite drop_app_ge by lia. by replace (S (length rg) - length rg) with 1 by lia.
  - by apply list_lookup_middle.
  - rewrite lookup_app_r by lia. replace (length pre + S (length rg) - length pre) with (S (length rg)) by lia. cbn. by apply list_lookup_middle.
Qed.
Lemma filter_one {X} (P : X -> Prop) `{forall x, Decision (P x)} (p : X) rest : forall l, filter P l = p :: rest ->
  exists pre post, l = pre ++ p :: post /\ filter P pre = [] /\ filter P post = rest /\ P p.
Proof.
  induction l as [|x l IH]; [done|]. rewrite filter_cons. destruct (decide (P x)) as [Hx|Hx].
  - intros E. injection E as -> E. by exists [], l.
  - intros E. destruct (IH E) as (pre & post & -> & E1 & E2 & E3). exists (x :: pre), post. rewrite filter_cons_False by done. done.
Qed.
Lemma filter_two {X} (P : X -> Prop) `{forall x, Decision (P x)} (p q : X) rest l : filter P l = p :: q :: rest ->
  exists pre rg post, l = pre ++ p :: rg ++ q :: post /\ filter P pre = [] /\ filter P rg = [] /\ filter P post = rest /\ P p /\ P q.
Proof.
  intros (pre & post & -> & E1 & E2 & E3)%filter_one. apply filter_one in E2 as (rg & post' & -> & E4 & E5 & E6). by exists pre, rg, post'.
Qed.
Lemma filter_nil_not {X} (P : X -> Prop) `{forall x, Decision (P x)} l (x : X) : filter P l = [] -> x ∈ l -> ~ P x.
Proof. intros E Hx HP. assert (x ∈ filter P l) as H1 by (by apply elem_of_list_filter). rewrite E in H1. by apply elem_of_nil in H1. Qed.
Lemma nodup_block blk : NoDup (names (concat blk)) -> (forall it, it ∈ blk -> it <> []) -> NoDup blk.
Proof.
  induction blk as [|it blk IH]; intros Hn Hne; [constructor|]. cbn [concat] in Hn. rewrite names_app in Hn. apply NoDup_app in Hn as (H1 & H2 & H3). constructor.
  - intros Hit. destruct it as [|o it]; [by apply (Hne []); [left|]|]. apply (H2 (o_id o)); [left|]. apply elem_of_list_fmap. exists o. split; [done|]. apply elem_concat. exists (o :: it). split; [done|left].
  - apply IH; [done|]. intros it' H. apply Hne. by right.
Qed.
Lemma wf_nodup blk : ordered (concat blk) -> well_formed blk -> NoDup blk.
Proof. intros [Hn _] Hw. apply nodup_block; [done|]. intros it Hit. destruct (Hw it Hit) as [[? _]|(o & -> & _)]; done. Qed.

(** * The pairs that are left *)
Definition in_order (hs : list nat) (e : nat * nat) : Prop := exists i j, i < j /\ hs !! i = Some (fst e) /\ hs !! j = Some (snd e).
Definition sweep (hs : list nat) (l : list (nat * nat)) : Prop :=
  match hs with
  | [] => l = []
  | a :: rest => exists (n : nat -> nat) t, l = (rest ≫= fun c => replicate (S (n c)) (a, c)) ++ t /\ forall e, e ∈ t -> in_order hs e
  end.
Lemma sweep_in hs l e : sweep hs l -> e ∈ l -> in_order hs e.
Proof.
  destruct hs as [|a rest]; cbn [sweep]; [intros ->; by intros ?%elem_of_nil|]. intros (n & t & -> & Ht) [(c & Hc%elem_of_replicate & Hr)%elem_of_list_bind|He]%elem_of_app; [|by apply Ht].
  destruct Hc as [-> _]. apply elem_of_list_lookup in Hr as (j & Hj). exists 0, (S j). split; [lia|done].
Qed.
Lemma in_order_neq hs e : NoDup hs -> in_order hs e -> fst e <> snd e /\ fst e ∈ hs /\ snd e ∈ hs.
Proof.
  intros Hn (i & j & Hij & Hi & Hj). split; [|split; by eapply elem_of_list_lookup_2]. intros E. rewrite E in Hi. pose proof (NoDup_lookup _ _ _ _ Hn Hi Hj). lia.
Qed.
Definition newname (a b h : nat) : nat := if decide (h = b) then a else h.
Lemma renew_cons a b e l : renew a b (e :: l) = (if decide (newname a b (fst e) = newname a b (snd e)) then [] else [(newname a b (fst e), newname a b (snd e))]) ++ renew a b l.
Proof.
  unfold renew. cbn [fmap list_fmap]. rewrite filter_cons. cbn [fst snd]. fold (newname a b (fst e)). fold (newname a b (snd e)). destruct (decide (newname a b (fst e) <> newname a b (snd e))) as [H|H]; destruct (decide (newname a b (fst e) = newname a b (snd e))); try done. 
Qed.
Lemma renew_app a b l k : renew a b (l ++ k) = renew a b l ++ renew a b k.
Proof. unfold renew. by rewrite fmap_app, filter_app. Qed.
Lemma renew_sweep a b rest l : NoDup (a :: b :: rest) -> sweep (a :: b :: rest) ((a, b) :: l) -> sweep (a :: rest) (renew a b l).
Proof.
  intros Hn (n & t & E & Ht). cbn [mbind list_bind] in E. change (replicate (S (n b)) (a, b)) with ((a, b) :: replicate (n b) (a, b)) in E. cbn [app] in E. injection E as ->.
  apply NoDup_cons in Hn as [Ha Hn]. apply NoDup_cons in Hn as [Hb Hn].
  assert (renew a b (replicate (n b) (a, b)) = []) as Er1.
  { induction (n b) as [|m IH]; [done|]. cbn [replicate]. rewrite renew_cons. cbn [fst snd]. unfold newname. rewrite (decide_False (P := a = b)) by (intros ->; apply Ha; left). rewrite (decide_True (P := b = b)) by done. rewrite decide_True by done. done. }
  assert (forall k, (forall c, c ∈ k -> c ∈ rest) -> renew a b (k ≫= fun c => replicate (S (n c)) (a, c)) = k ≫= fun c => replicate (S (n c)) (a, c)) as Er2.
  { induction k as [|c k IH]; intros Hk; [done|]. cbn [mbind list_bind]. rewrite renew_app, IH by (intros; apply Hk; by right). f_equal. assert (c ∈ rest) as Hc by (apply Hk; left).
    generalize (S (n c)) as m. induction m as [|m IHm]; [done|]. cbn [replicate]. rewrite renew_cons, IHm. cbn [fst snd]. unfold newname. rewrite (decide_False (P := a = b)) by (intros ->; apply Ha; left).
    rewrite (decide_False (P := c = b)) by (intros ->; done). rewrite decide_False; [done|]. intros ->. apply Ha. by right. }
  exists n, (renew a b t). split.
  - rewrite !renew_app, Er1, Er2 by done. done.
  - intros e He. unfold renew in He. apply elem_of_list_filter in He as [Hne (e0 & -> & He0)%elem_of_list_fmap]. cbn [fst snd] in *. destruct (Ht e0 He0) as (i & j & Hij & Hi & Hj).
    fold (newname a b (fst e0)) in *. fold (newname a b (snd e0)) in *.
    assert (forall i h, (a :: b :: rest) !! i = Some h -> (a :: rest) !! (i - 1) = Some (newname a b h)) as Hix.
    { clear - Ha Hb. intros [|[|i]] h Hi; cbn in Hi.
      - injection Hi as <-. unfold newname. rewrite decide_False by (intros ->; apply Ha; left). done.
      - injection Hi as <-. unfold newname. by rewrite decide_True.
      - unfold newname. rewrite decide_False; [done|]. intros ->. apply Hb. by eapply elem_of_list_lookup_2. }
    exists (i - 1), (j - 1). cbn [fst snd]. split; [|split; by apply Hix]. destruct i as [|i]; [|lia]. destruct j as [|[|j]]; [lia| |lia]. exfalso. apply Hne. apply Hix in Hi, Hj. cbn in Hi, Hj. congruence.
Qed.

Lemma sub_filter {X} (P : X -> Prop) `{forall x, Decision (P x)} (l : list X) : sublist (filter P l) l.
Proof. induction l as [|x l IH]; [constructor|]. rewrite filter_cons. destruct (decide (P x)); by constructor. Qed.

(** * One step *)
Ltac na := repeat progress (rewrite <- ?app_assoc; cbn [app]).
Ltac nah H := repeat progress (rewrite <- ?app_assoc in H; cbn [app] in H).
Section step.
  Context (cls : nat -> nat).
  Definition of_class (k : nat) (it : list vop) : Prop := is_pipe it = true /\ cls (head_id it) = k.
  Global Instance of_class_dec k it : Decision (of_class k it).
  Proof. unfold of_class. apply _. Defined.
  Definition pipes (k : nat) (blk : list (list vop)) : list (list vop) := filter (of_class k) blk.
  Definition follower blk p : Prop := exists f, (exists k1 k2, blk = k1 ++ p :: [f] :: k2) /\ o_vec f = false /\ (exists r, r ∈ p /\ o_id r ∈ o_args f) /\
    forall r, r ∈ concat blk -> o_vec r = true -> r ∉ p -> ~ reach (concat blk) (o_id f) (o_id r).
  Record inv blk (l : list (nat * nat)) : Prop := {
    i_ord : ordered (concat blk);
    i_wf : well_formed blk;
    i_ind : independent blk;
    i_nest : nested_plain blk;
    i_fol : forall k l1 p q l2, pipes k blk = l1 ++ p :: q :: l2 -> follower blk p;
    i_swp : forall k, sweep (head_id <$> pipes k blk) (filter (fun e => cls (fst e) = k) l) }.
  Definition eff_ok (k : nat) blk : Prop := forall k1 p k2 (e : vop) k3 q k4, blk = k1 ++ p :: k2 ++ [e] :: k3 ++ q :: k4 -> p ∈ pipes k blk -> q ∈ pipes k blk -> o_eff e = true ->
    exists it r, it ∈ pipes k blk /\ r ∈ it /\ reach (concat blk) (o_id e) (o_id r).

  Lemma head_in blk it : well_formed blk -> it ∈ blk -> head_id it ∈ names it.
  Proof. intros Hw Hi. destruct (Hw it Hi) as [[Hn _]|(o & -> & _)]; [|left]. destruct it; [done|left]. Qed.
  Lemma heads_nodup blk : ordered (concat blk) -> well_formed blk -> NoDup (head_id <$> blk).
  Proof.
    induction blk as [|it blk IH]; intros (Hn & Ho1 & Ho2) Hw; [constructor|]. cbn [concat] in *. rewrite names_app in Hn. apply NoDup_app in Hn as (H1 & H2 & H3). constructor.
    - intros (it' & E & Hit)%elem_of_list_fmap. apply (H2 (head_id it)); [eapply head_in; [done|left]|]. rewrite E. apply names_concat. apply elem_of_list_lookup in Hit as (i & Hi). exists i, it'. split; [done|].
      eapply head_in; [exact Hw|]. right. by eapply elem_of_list_lookup_2.
    - apply IH; [|intros x Hx; apply Hw; by right]. apply ss_app_iff in Ho1 as (_ & Ho1 & _). apply Forall_app in Ho2 as [_ Ho2]. done.
  Qed.
  Lemma pipe_heads_nodup blk k : ordered (concat blk) -> well_formed blk -> NoDup (head_id <$> pipes k blk).
  Proof. intros Ho Hw. eapply sublist_NoDup; [|by apply (heads_nodup blk)]. apply fmap_sublist, sub_filter. Qed.

  Lemma step blk a b l : inv blk ((a, b) :: l) ->
    exists pre p rg q post blk', blk = pre ++ p :: rg ++ q :: post /\ fuse blk a b = Ok blk' /\ 
      blk' = pre ++ filter (fun it => op_dep blk it a = false) rg ++ (p ++ q) :: filter (fun it => op_dep blk it a = true) rg ++ post /\
      concat blk' ≡ₚ concat blk /\ inv blk' (renew a b l) /\ head_id p = a /\
      (exists rest, pipes (cls a) blk = p :: q :: rest /\ pipes (cls a) blk' = (p ++ q) :: rest /\ pipes (cls a) post = rest) /\ (forall k, k <> cls a -> pipes k blk' = pipes k blk) /\
      (forall it, plain it -> it ∈ blk' <-> it ∈ blk).
  Proof.
    intros [Ho Hw Hin Hne Hfol Hswp]. pose proof (Hswp (cls a)) as Hs. rewrite filter_cons_True in Hs by done.
    pose proof (pipe_heads_nodup blk (cls a) Ho Hw) as Hhn.
    destruct (sweep_in _ _ (a, b) Hs) as (i & j & Hij & Hi & Hj); [left|]. cbn [fst snd] in *.
    assert (exists p q rest, pipes (cls a) blk = p :: q :: rest /\ head_id p = a /\ head_id q = b) as (p & q & rest & Ep & Ea & Eb).
    { destruct (pipes (cls a) blk) as [|p [|q rest]] eqn:E; cbn in Hs.
      - done.
      - destruct j as [|j]; [lia|]. done.
      - exists p, q, rest. destruct Hs as (n & t & E2 & _). injection E2 as -> -> _. done. }
    destruct (filter_two _ _ _ _ _ Ep) as (pre & rg & post & Eblk & F1 & F2 & F3 & Pp & Pq).
    assert (p ∈ blk) as Hpb by (rewrite Eblk; apply elem_of_app; right; left). assert (q ∈ blk) as Hqb by (rewrite Eblk; apply elem_of_app; right; right; apply elem_of_app; right; left).
    assert (pipeline p) as Hpp by (apply (is_pipe_iff blk); [done|done|apply Pp]). assert (pipeline q) as Hqp by (apply (is_pipe_iff blk); [done|done|apply Pq]).
    pose proof (wf_nodup blk Ho Hw) as Hnb.
    assert (p <> q) as Hpq. { intros ->. rewrite Eblk in Hnb. apply NoDup_app in Hnb as (_ & _ & Hnb). apply NoDup_cons in Hnb as [Hnb _]. apply Hnb, elem_of_app. right. left. }
    destruct (slices pre p rg q post) as (L1 & L2 & L3 & L4 & L5). rewrite <- Eblk in L1, L2, L3, L4, L5.
    assert (pos blk a = Some (length pre)) as Pa. { eapply pos_lookup; [apply Ho|done|]. rewrite <- Ea. by eapply head_in. }
    assert (pos blk b = Some (length pre + S (length rg))) as Pb. { eapply pos_lookup; [apply Ho|done|]. rewrite <- Eb. by eapply head_in. }
    assert (forall it, it ∈ rg -> it ∈ blk) as Hrgb by (intros it Hit; rewrite Eblk; apply elem_of_app; right; right; apply elem_of_app; by left).
    (* the operation that follows *)
    destruct (Hfol (cls a) [] p q rest Ep) as (f & (k1 & k2 & Ek) & Hfv & (r0 & Hr0 & Hfa) & Hpriv).
    assert (pre = k1 /\ rg ++ q :: post = [f] :: k2) as [<- Ek2] by (apply (nodup_split p); [by rewrite <- Eblk|by rewrite <- Eblk, <- Ek]).
    assert (exists rg', rg = [f] :: rg') as (rg' & Erg). { destruct rg as [|x rg']; cbn in Ek2; injection Ek2 as E1 _; [|rewrite E1; eauto]. exfalso. eapply plain_not_pipe; [|exact Hqp]. by exists f. }
    assert ([f] ∈ rg) as Hfrg by (rewrite Erg; left).
    assert (f ∈ concat blk) as Hfc by (apply elem_concat; exists [f]; split; [by apply Hrgb|left]).
    assert (op_dep blk [f] a = true) as Hdf.
    { pose proof (Hrgb _ Hfrg) as Hfb. apply elem_of_list_lookup in Hfb as (jf & Hjf). assert (r0 ∈ concat blk) as Hr0c by (apply elem_concat; by exists p).
      rewrite (op_dep_same blk [f] a (o_id r0)); [|rewrite Pa; symmetry; eapply pos_lookup; [apply Ho|done|by apply elem_of_list_fmap_1]].
      eapply op_dep_direct; [done|exact Hjf| |eexists; eapply pos_lookup; [apply Ho|exact L4|by apply elem_of_list_fmap_1]]. apply in_operands. split; [|exists f; split; [left|done]].
      cbn. intros E%elem_of_list_singleton. assert (r0 = f) as -> by (by apply (same_op _ _ _ Ho)). destruct Hpp as [_ Hv]. rewrite Hv in Hfv; done. }
    set (dep := fun it => op_dep blk it a).
    (* what depends on the first pipeline *)
    assert (forall it, it ∈ blk -> dep it = true -> exists y r, y ∈ it /\ r ∈ p /\ reach (concat blk) (o_id y) (o_id r)) as Hdep.
    { intros it Hit Hd. apply elem_of_list_lookup in Hit as (i1 & Hi1). by apply (op_dep_reach blk i1 it a (length pre) p). }
    assert (forall it, it ∈ blk -> pipeline it -> it <> p -> dep it = false) as Hindep.
    { intros it Hit Hpl Hnp. destruct (dep it) eqn:E; [|done]. destruct (Hdep it Hit E) as (y & r & Hy & Hr & Hre). exfalso. by apply (Hin it p y r). }
    assert (forall x b a0 y z, x ∈ blk -> a0 ∈ blk -> x <> a0 -> y ∈ x -> z ∈ a0 -> o_id z ∈ o_args y -> b = o_id z -> b ∈ operands x) as Hopnd.
    { intros x b0 a0 y z Hx Ha0 Hxa Hy Hz Hu ->. apply in_operands. split; [|by exists y]. intros Hnm. apply Hxa. eapply (item_unique blk); [apply Ho|done|done|exact Hnm|by apply elem_of_list_fmap_1]. }
    assert (forall y z, y ∈ concat blk -> z ∈ p -> o_id z ∈ uses y -> o_id z ∈ o_args y) as Hargs1.
    { intros y z Hy Hz Hu. unfold uses in Hu. apply elem_of_app in Hu as [?|Hu]; [done|]. exfalso. assert (z ∈ concat blk) as Hzc by (apply elem_concat; by exists p). by destruct (Hne y (o_id z) z Hy Hu Hzc (proj2 Hpp z Hz)). }
    assert (forall b0, b0 ∈ rg -> dep b0 = false -> unused_it b0 p) as Cbp.
    { intros b0 Hb0 Hd y z Hy Hz Hu. assert (y ∈ concat blk) as Hyc by (apply elem_concat; exists b0; split; [by apply Hrgb|done]). pose proof (Hargs1 y z Hyc Hz Hu) as Hu2.
      pose proof (Hrgb b0 Hb0) as Hbb. assert (b0 <> p) as Hbp. { intros ->. rewrite Eblk in Hnb. apply NoDup_app in Hnb as (_ & _ & Hnb). apply NoDup_cons in Hnb as [Hnb _]. apply Hnb, elem_of_app. by left. }
      pose proof (Hopnd b0 (o_id z) p y z Hbb Hpb Hbp Hy Hz Hu2 eq_refl) as Hop. apply elem_of_list_lookup in Hbb as (i1 & Hi1).
      assert (pos blk (o_id z) = Some (length pre)) as Hpz by (eapply pos_lookup; [apply Ho|exact L4|by apply elem_of_list_fmap_1]).
      assert (op_dep blk b0 (o_id z) = true) as Hd2 by (eapply op_dep_direct; [done|exact Hi1|done|by eexists]).
      unfold dep in Hd. rewrite (op_dep_same blk b0 a (o_id z)) in Hd by congruence. congruence. }
    assert (forall a0 b0, a0 ∈ rg -> b0 ∈ blk -> dep a0 = true -> dep b0 = false -> unused_it b0 a0) as Cba.
    { intros a0 b0 Ha0 Hb0 Hda Hdb y z Hy Hz Hu. pose proof (Hrgb a0 Ha0) as Hab. assert (b0 <> a0) as Hneq by (intros ->; congruence).
      assert (y ∈ concat blk) as Hyc by (apply elem_concat; by exists b0).
      destruct (Hdep a0 Hab Hda) as (y1 & r & Hy1 & Hr & Hre). assert (plain a0) as (o & -> & Hov).
      { destruct (Hw a0 Hab) as [Hpl|]; [|done]. exfalso. assert (a0 <> p) as Hap. { intros ->. rewrite Eblk in Hnb. apply NoDup_app in Hnb as (_ & _ & Hnb). apply NoDup_cons in Hnb as [Hnb _]. apply Hnb, elem_of_app. by left. }
        rewrite Hindep in Hda; done. }
      apply elem_of_list_singleton in Hz as ->, Hy1 as ->. unfold uses in Hu. apply elem_of_app in Hu as [Hu|Hu].
      - pose proof (Hopnd b0 (o_id o) [o] y o Hb0 Hab Hneq Hy (elem_of_list_here _ _) Hu eq_refl) as Hop. apply elem_of_list_lookup in Hb0 as (i1 & Hi1), Hab as (i2 & Hi2).
        assert (op_dep blk b0 a = true) as Hd2. { eapply (op_dep_step blk i1 b0 i2 [o] (o_id o)); try done. eapply pos_lookup; [apply Ho|exact Hi2|left]. }
        unfold dep in Hdb. congruence.
      - assert (r ∈ concat blk) as Hrc by (apply elem_concat; by exists p). by destruct (Hne y (o_id o) r Hyc Hu Hrc (proj2 Hpp r Hr)). }
    assert (dep q = false) as Hdq by (by apply Hindep).
    destruct (place_ordered pre p rg q post dep) as [HP HO].
    { by rewrite <- Eblk. } { exact Cbp. } { intros a0 b0 Ha0 Hb0. apply Cba; [done|by apply Hrgb]. } { intros a0 Ha0 Hda. by apply Cba. }
    rewrite <- Eblk in HP. set (blk' := pre ++ filter (fun it => dep it = false) rg ++ (p ++ q) :: filter (fun it => dep it = true) rg ++ post) in *.
    assert (forall it, it ∈ filter (fun it => dep it = false) rg <-> dep it = false /\ it ∈ rg) as HB by (intros; by rewrite elem_of_list_filter).
    assert (forall it, it ∈ filter (fun it => dep it = true) rg <-> dep it = true /\ it ∈ rg) as HA by (intros; by rewrite elem_of_list_filter).
    assert (forall it, it ∈ blk' <-> it = p ++ q \/ (it ∈ blk /\ it <> p /\ it <> q)) as Hin'.
    { intros it. unfold blk'. rewrite Eblk. rewrite !elem_of_app, !elem_of_cons, !elem_of_app, HB, HA, elem_of_cons. rewrite Eblk in Hnb. 
      assert (it ∈ rg -> dep it = false \/ dep it = true) by (intros; destruct (dep it); tauto).
      assert (it ∈ pre -> it <> p /\ it <> q). { intros G1. apply NoDup_app in Hnb as (_ & G2 & _). specialize (G2 it G1). rewrite elem_of_cons, elem_of_app, elem_of_cons in G2. tauto. }
      assert (it ∈ rg -> it <> p /\ it <> q). { intros G1. apply NoDup_app in Hnb as (_ & _ & G2). apply NoDup_cons in G2 as [G2 G3]. apply NoDup_app in G3 as (_ & G3 & _). specialize (G3 it G1). rewrite elem_of_app in G2. rewrite elem_of_cons in G3. split; intros ->; tauto. }
      assert (it ∈ post -> it <> p /\ it <> q). { intros G1. apply NoDup_app in Hnb as (_ & _ & G2). apply NoDup_cons in G2 as [G2 G3]. apply NoDup_app in G3 as (_ & _ & G3). apply NoDup_cons in G3 as [G3 _]. rewrite elem_of_app, elem_of_cons in G2. split; intros ->; tauto. }
      tauto. }
    assert (pipeline (p ++ q)) as Hpipe. { split; [destruct Hpp as [Hpp _]; by destruct p|]. intros o [?|?]%elem_of_app; [by apply Hpp|by apply Hqp]. }
    assert (head_id (p ++ q) = a) as Hhead. { destruct Hpp as [Hpp _]. destruct p; done. }
    assert (well_formed blk') as Hw'. { intros it [->|(Hit & _)]%Hin'; [by left|by apply Hw]. }
    assert (forall it, it ∈ rg -> is_pipe it = true -> dep it = false) as Hrgp.
    { intros it Hit Hip. apply Hindep; [by apply Hrgb|by apply (is_pipe_iff blk); [|apply Hrgb|]|]. intros ->. rewrite Eblk in Hnb. apply NoDup_app in Hnb as (_ & _ & Hnb). apply NoDup_cons in Hnb as [Hnb _]. apply Hnb, elem_of_app. by left. }
    assert (forall k, pipes k (filter (fun it => dep it = false) rg) = pipes k rg /\ pipes k (filter (fun it => dep it = true) rg) = []) as Hpk.
    { intros k. unfold pipes. clear - Hrgp. induction rg as [|it rg IH]; [done|]. destruct IH as [IH1 IH2]; [intros; apply Hrgp; [by right|done]|]. rewrite !filter_cons. destruct (dep it) eqn:E.
      - rewrite (decide_False (P := true = false)), (decide_True (P := true = true)) by done. rewrite filter_cons. assert (~ of_class k it) as Hno by (intros [Hc _]; rewrite Hrgp in E; [done|left|done]). rewrite !decide_False by done. done.
      - rewrite (decide_True (P := false = false)), (decide_False (P := false = true)) by done. rewrite filter_cons. destruct (decide (of_class k it)); (split; [by rewrite IH1|done]). }
    assert (of_class (cls a) (p ++ q)) as HPpq. { split; [|by rewrite Hhead]. apply (is_pipe_iff blk'); [done|apply Hin'; by left|done]. }
    assert (pipes (cls a) blk' = (p ++ q) :: rest) as Epk.
    { unfold blk', pipes. rewrite !filter_app, filter_cons_True, filter_app by done. destruct (Hpk (cls a)) as [E1 E2]. unfold pipes in E1, E2. rewrite E1, E2, F1, F2, F3. done. }
    assert (forall k, k <> cls a -> pipes k blk' = pipes k blk) as Epo.
    { intros k Hk. unfold blk', pipes. rewrite Eblk. rewrite !filter_app. rewrite !filter_cons_False. 2,3: intros [_ Hc]; apply Hk; rewrite <- Hc; congruence. rewrite !filter_app. rewrite filter_cons_False.
      2:{ intros [_ Hc]. apply Hk. rewrite <- Hc. rewrite <- (proj2 Pq). done. }
      destruct (Hpk k) as [E1 E2]. unfold pipes in E1, E2. rewrite E1, E2. done. }
    exists pre, p, rg, q, post, blk'. split; [done|]. split.
    { unfold fuse. rewrite Pa, Pb, L4, L5. rewrite decide_False by lia. 
      assert (existsb (fun a0 => bool_decide (a0 ∈ names p)) (operands q) = false) as ->.
      { apply not_true_is_false. intros (x & Hx%elem_of_list_In & Hxp)%existsb_exists. apply bool_decide_eq_true in Hxp. apply in_operands in Hx as (_ & y & Hy & Hx). apply elem_of_list_fmap in Hxp as (z & -> & Hz).
        apply (Hin q p y z); try done. apply reach_use; [apply elem_concat; by exists q|by apply args_uses]. }
      rewrite L1, L2, L3. assert (place dep (p ++ q) rg = filter (fun it => dep it = false) rg ++ [p ++ q] ++ filter (fun it => dep it = true) rg) as Hpl.
      { unfold place. destruct rg as [|x rg2]; [done|]. injection Erg as -> _. assert (dep [f] = true) as Hdf2 by exact Hdf. by rewrite Hdf2. }
      fold dep. rewrite Hpl. unfold blk'. by rewrite <- app_assoc. }
    split; [done|]. split; [done|]. split.
    { constructor; [done|done| | | |].
      - intros p1 p2 o r H1%Hin' H2%Hin' Hp1 Hp2 H12 Ho1 Hr2. rewrite (reach_perm _ _ _ _ HP).
        assert (exists p1', p1' ∈ blk /\ pipeline p1' /\ o ∈ p1' /\ (p1' = p1 \/ (p1 = p ++ q /\ (p1' = p \/ p1' = q)))) as (p1' & B1 & B2 & B3 & B4).
        { destruct H1 as [->|(H1 & _)]; [|exists p1; tauto]. apply elem_of_app in Ho1 as [?|?]; [exists p|exists q]; tauto. }
        assert (exists p2', p2' ∈ blk /\ pipeline p2' /\ r ∈ p2' /\ (p2' = p2 \/ (p2 = p ++ q /\ (p2' = p \/ p2' = q)))) as (p2' & D1 & D2 & D3 & D4).
        { destruct H2 as [->|(H2 & _)]; [|exists p2; tauto]. apply elem_of_app in Hr2 as [?|?]; [exists p|exists q]; tauto. }
        apply (Hin p1' p2' o r); try done. intros E. subst p2'. destruct H1 as [E1|(H1 & H1a & H1b)], H2 as [E2|(H2 & H2a & H2b)]; subst; try done.
        + destruct D4 as [D4|[D4 _]]; [|by subst]. destruct B4 as [B4|[_ [B4|B4]]]; subst; [|done..]. done.
        + destruct B4 as [B4|[B4 _]]; [|by subst]. destruct D4 as [D4|[_ [D4|D4]]]; subst; done.
        + destruct B4 as [B4|[B4 B5]], D4 as [D4|[D4 D5]]; subst; try done; destruct_or?; subst; done.
      - intros y x r Hy Hx Hr Hrv. rewrite (reach_perm _ _ _ _ HP). rewrite HP in Hy, Hr. by apply (Hne y x r).
      - assert (forall (r : list vop), r ∈ blk -> r <> p -> r <> q -> pipeline r -> follower blk r -> follower blk' r) as Hmove.
        { intros r Hrb Hrp Hrq Hpl (f' & (u1 & u2 & Eu) & Hfv' & Hfu & Hfp). exists f'. split; [|split; [done|]; split; [done|]; intros r' Hr'; rewrite HP in Hr'; rewrite (reach_perm _ _ _ _ HP); by apply Hfp].
          assert (plain [f']) as Hpf by (by exists f'). assert ([f'] <> p /\ [f'] <> q) as [Hfp1 Hfq1] by (split; intros <-; by eapply plain_not_pipe).
          assert (r ∈ pre \/ r ∈ rg \/ r ∈ post) as Hcase. { rewrite Eblk in Hrb. rewrite elem_of_app, elem_of_cons, elem_of_app, elem_of_cons in Hrb. tauto. }
          destruct Hcase as [Hc|[Hc|Hc]]; apply elem_of_list_split in Hc as (v1 & v2 & Ev).
          - assert (v1 = u1 /\ v2 ++ p :: rg ++ q :: post = [f'] :: u2) as [-> E2]. { apply (nodup_split r); [|rewrite <- Eu, Eblk, Ev, <- app_assoc; done]. rewrite Eblk, Ev, <- app_assoc in Hnb. done. }
            destruct v2 as [|x v2]; cbn in E2; injection E2 as -> E2; [done|]. unfold blk'. rewrite Ev. exists u1. rewrite <- app_assoc. cbn. eauto.
          - assert (pre ++ p :: v1 = u1 /\ v2 ++ q :: post = [f'] :: u2) as [<- E2]. 
            { apply (nodup_split r); [|rewrite <- Eu, Eblk, Ev; by na]. rewrite Eblk, Ev in Hnb. nah Hnb. by na. }
            destruct v2 as [|x v2]; cbn in E2; injection E2 as -> E2; [done|]. assert (r ∈ rg /\ [f'] ∈ rg) as [Hr1 Hr2] by (rewrite Ev, !elem_of_app, !elem_of_cons; tauto).
            assert (dep r = false) as D1 by (by apply Hindep). assert (dep [f'] = false) as D2.
            { destruct (dep [f']) eqn:E; [|done]. destruct (Hdep [f'] (Hrgb _ Hr2) E) as (y & r1 & Hy & Hr1' & Hre). apply elem_of_list_singleton in Hy as ->. exfalso. assert (r1 ∈ concat blk) as Hr1c by (apply elem_concat; by exists p).
              apply (Hfp r1 Hr1c (proj2 Hpp r1 Hr1')); [|done]. intros H. apply Hrp. eapply (item_unique blk); [apply Ho|done|done|by apply elem_of_list_fmap_1|by apply elem_of_list_fmap_1]. }
            unfold blk'. rewrite Ev. rewrite !filter_app, !filter_cons. rewrite D1, D2. rewrite !(decide_True (P := false = false)), !(decide_False (P := false = true)) by done. eexists (pre ++ filter _ v1), _. rewrite <- !app_assoc. cbn. reflexivity.
          - assert ((pre ++ p :: rg ++ q :: v1) = u1 /\ v2 = [f'] :: u2) as [<- ->].
            { apply (nodup_split r); [|rewrite <- Eu, Eblk, Ev; by na]. rewrite Eblk, Ev in Hnb. nah Hnb. by na. }
            unfold blk'. rewrite Ev. eexists (pre ++ filter _ rg ++ (p ++ q) :: filter _ rg ++ v1), u2. na. reflexivity. }
        intros k l1 r r' l2 E. destruct (decide (k = cls a)) as [->|Hk].
        + rewrite Epk in E. destruct l1 as [|x l1]; cbn in E; injection E as E0 E.
          * exists f. subst r. split; [|split; [done|]; split; [exists r0; split; [apply elem_of_app; by left|done]|]].
            -- exists (pre ++ filter (fun it => dep it = false) rg). unfold blk'. rewrite Erg. rewrite (filter_cons (fun it => dep it = true)). change (dep [f]) with (op_dep blk [f] a). rewrite Hdf. rewrite decide_True by done. eexists. rewrite <- !app_assoc. cbn. reflexivity.
            -- intros r2 Hr2 Hv2 Hno. rewrite (reach_perm _ _ _ _ HP). rewrite HP in Hr2. apply Hpriv; [done|done|]. intros H. apply Hno, elem_of_app. by left.
          * assert (r ∈ pipes (cls a) blk) as Hrp. { rewrite Ep. do 2 right. rewrite E. apply elem_of_app. right. left. }
            assert (r ∈ rest) as Hrr by (rewrite E; apply elem_of_app; right; left).
            assert (NoDup (p :: q :: rest)) as Hnr. { rewrite <- Ep. eapply sublist_NoDup; [apply sub_filter|done]. } apply NoDup_cons in Hnr as [N1 N2]. apply NoDup_cons in N2 as [N2 _].
            unfold pipes in Hrp. apply elem_of_list_filter in Hrp as [Hc Hrb]. apply Hmove; [done|intros ->; apply N1; by right|by intros ->|by apply (is_pipe_iff blk); [| |apply Hc]|].
            apply (Hfol (cls a) (p :: q :: l1) r r' l2). rewrite Ep, E. done.
        + rewrite Epo in E by done. assert (r ∈ pipes k blk) as Hrp by (rewrite E; apply elem_of_app; right; left). unfold pipes in Hrp. apply elem_of_list_filter in Hrp as [Hc Hrb].
          apply Hmove; [done| | |by apply (is_pipe_iff blk); [| |apply Hc]|by eapply Hfol]; intros ->; apply Hk; [rewrite <- (proj2 Hc), Ea; done|rewrite <- (proj2 Hc); apply Pq].
      - assert (cls b = cls a) as Hcb by (rewrite <- Eb; apply Pq).
        assert (forall k, filter (fun e => cls (fst e) = k) (renew a b l) = renew a b (filter (fun e => cls (fst e) = k) l)) as Hfr.
        { intros k. clear - Hcb. induction l as [|e l IH]; [done|]. rewrite renew_cons, filter_app, IH. rewrite filter_cons. assert (cls (newname a b (fst e)) = cls (fst e)) as Hn by (unfold newname; case_decide; congruence).
          destruct (decide (cls (fst e) = k)) as [Hk|Hk].
          - rewrite renew_cons. f_equal. case_decide; [done|]. rewrite filter_cons_True by (cbn; congruence). done.
          - case_decide; [done|]. rewrite filter_cons_False by (cbn; congruence). done. }
        intros k. rewrite Hfr. destruct (decide (k = cls a)) as [->|Hk].
        + rewrite Epk. cbn [fmap list_fmap]. rewrite Hhead. rewrite Ep in Hs, Hhn. cbn [fmap list_fmap] in Hs, Hhn. rewrite Ea, Eb in Hs, Hhn. by apply renew_sweep.
        + rewrite Epo by done. pose proof (Hswp k) as Hsk. rewrite filter_cons_False in Hsk by (cbn; congruence).
          assert (renew a b (filter (fun e => cls (fst e) = k) l) = filter (fun e => cls (fst e) = k) l) as ->; [|done].
          assert (forall e, e ∈ filter (fun e => cls (fst e) = k) l -> fst e <> snd e /\ fst e <> b /\ snd e <> b) as Hall.
          { intros e He. apply (sweep_in _ _ _ Hsk) in He. apply in_order_neq in He as (N1 & N2 & N3); [|by apply pipe_heads_nodup]. split; [done|]. 
            assert (b ∉ head_id <$> pipes k blk). { intros (it & -> & Hit)%elem_of_list_fmap. unfold pipes in Hit. apply elem_of_list_filter in Hit as [[_ Hc] _]. apply Hk. congruence. }
            split; intros E; rewrite E in *; done. }
          clear - Hall. induction (filter (fun e => cls (fst e) = k) l) as [|e l' IH]; [done|]. rewrite renew_cons, IH by (intros; apply Hall; by right). destruct (Hall e) as (N1 & N2 & N3); [left|]. unfold newname. rewrite !(decide_False (P := _ = b)) by done. rewrite decide_False by done. by destruct e. }
    split; [done|]. split; [by exists rest|]. split; [done|].
    intros it Hpl. rewrite Hin'. split.
    - intros [->|[? _]]; [|done]. exfalso. by eapply plain_not_pipe.
    - intros H. right. split; [done|]. split; intros ->; by eapply plain_not_pipe.
  Qed.
End step.

(** * Side effects of one step *)
Lemma reach_before l x a : ordered l -> reach l x a -> forall u y v r, l = u ++ y :: v -> o_id y = x -> o_id r = a -> r ∈ l -> r ∈ u.
Proof.
  intros Ho. induction 1 as [y' a Hy' Ha|y' z a Hy' Hz Hzu Hzv Hre IH]; intros u y v r E Ex Er Hr.
  - assert (y ∈ l) as Hy by (rewrite E; apply elem_of_app; right; left). assert (y = y') as <- by (by apply (same_op _ _ _ Ho)). subst a.
    destruct Ho as (_ & Hs & Hf). rewrite E in Hs, Hr. apply ss_app_iff in Hs as (_ & Hs & _). apply StronglySorted_inv in Hs as [_ Hs]. rewrite Forall_forall in Hs, Hf.
    apply elem_of_app in Hr as [?|[->|Hr]%elem_of_cons]; [done|exfalso; by apply (Hf y)|exfalso; by apply (Hs r)].
  - assert (y ∈ l) as Hy by (rewrite E; apply elem_of_app; right; left). assert (y = y') as <- by (by apply (same_op _ _ _ Ho)).
    assert (z ∈ u) as Hzu2.
    { pose proof Ho as (_ & Hs & Hf). rewrite E in Hs, Hz. apply ss_app_iff in Hs as (_ & Hs & _). apply StronglySorted_inv in Hs as [_ Hs]. rewrite Forall_forall in Hs, Hf.
      apply elem_of_app in Hz as [?|[->|Hz]%elem_of_cons]; [done|exfalso; by apply (Hf y)|exfalso; by apply (Hs z)]. }
    apply elem_of_list_split in Hzu2 as (u1 & u2 & ->). assert (r ∈ u1) as H1 by (eapply (IH u1 z (u2 ++ y :: v) r); [rewrite E; by rewrite <- app_assoc|done..]). apply elem_of_app. by left.
Qed.
Section effects.
  Context (cls : nat -> nat).
  Definition pure blk : Prop := forall o, o ∈ concat blk -> o_vec o = true -> o_eff o = false.
  Lemma effects_pipe it : (forall o, o ∈ it -> o_eff o = false) -> effects it = [].
  Proof. intros H. apply effects_none. done. Qed.

  Lemma step_effects blk a b l : inv cls blk ((a, b) :: l) -> pure blk -> eff_ok cls (cls a) blk ->
    forall blk', fuse blk a b = Ok blk' -> effects (concat blk') = effects (concat blk) /\ eff_ok cls (cls a) blk'.
  Proof.
    intros Hinv Hpure Heff blk' Hf. destruct (step cls blk a b l Hinv) as (pre & p & rg & q & post & blk2 & Eblk & Hf2 & Eblk' & HP & Hinv' & Ea & (rest & Ep & Ep' & Epost) & _ & Hpl).
    rewrite Hf in Hf2. injection Hf2 as <-. destruct Hinv as [Ho Hw Hin Hne _ _]. pose proof (wf_nodup blk Ho Hw) as Hnb.
    assert (p ∈ pipes cls (cls a) blk) as Hp by (rewrite Ep; left). assert (q ∈ pipes cls (cls a) blk) as Hq by (rewrite Ep; right; left).
    assert (pipes cls (cls a) pre = [] /\ pipes cls (cls a) rg = []) as [Epre Erg].
    { assert (pipes cls (cls a) blk = pipes cls (cls a) pre ++ p :: pipes cls (cls a) rg ++ q :: pipes cls (cls a) post) as E.
      { rewrite Eblk. unfold pipes. rewrite filter_app, filter_cons_True, filter_app, filter_cons_True; [done|..]; unfold pipes in Hp, Hq; rewrite elem_of_list_filter in Hp, Hq; tauto. }
      rewrite Ep, Epost in E. assert (length (p :: q :: rest) = length (pipes cls (cls a) pre ++ p :: pipes cls (cls a) rg ++ q :: rest)) as El by (by rewrite E). rewrite app_length in El. cbn in El. rewrite app_length in El. cbn in El.
      split; apply nil_length_inv; lia. }
    assert (forall it, it ∈ rg -> it ∈ blk) as Hrgb by (intros it Hit; rewrite Eblk; apply elem_of_app; right; right; apply elem_of_app; by left).
    assert (forall it, it ∈ pipes cls (cls a) blk -> it ∈ blk /\ pipeline it) as Hpi. { unfold pipes. intros it [[H1 _] H2]%elem_of_list_filter. split; [done|]. by apply (is_pipe_iff blk). }
    assert (p ∈ blk /\ pipeline p) as [Hpb Hpp] by (by apply Hpi). assert (q ∈ blk /\ pipeline q) as [Hqb Hqp] by (by apply Hpi).
    (* an operation with effects between the two pipelines needs the first one *)
    assert (forall it, it ∈ rg -> op_dep blk it a = false -> effects it = []) as Hnone.
    { intros it Hit Hd. apply effects_pipe. intros e He. destruct (o_eff e) eqn:Ee; [exfalso|done].
      assert (e ∈ concat blk) as Hec by (apply elem_concat; exists it; split; [by apply Hrgb|done]). destruct (Hw it (Hrgb it Hit)) as [[_ Hpv]|(o & -> & Hov)].
      { rewrite (Hpure e Hec) in Ee; [done|by apply Hpv]. } apply elem_of_list_singleton in He as ->.
      apply elem_of_list_split in Hit as (rg1 & rg2 & Er). destruct (Heff pre p rg1 o rg2 q post) as (it & r & Hitp & Hr & Hre); [rewrite Eblk, Er; by na|done..|].
      destruct (Hpi it Hitp) as [Hitb Hitpl]. assert (r ∈ concat blk) as Hrc by (apply elem_concat; by exists it).
      assert (r ∈ concat (pre ++ p :: rg1)) as Hrb.
      { eapply (reach_before _ _ _ Ho Hre _ o (concat (rg2 ++ q :: post))); [|done|done|done]. rewrite Eblk, Er. na. rewrite !concat_app. cbn [concat]. rewrite !concat_app. cbn [concat]. rewrite !concat_app. cbn. by rewrite <- !app_assoc. }
      apply elem_concat in Hrb as (it2 & Hit2 & Hr2). assert (it2 ∈ blk) as Hit2b by (rewrite Eblk, Er; rewrite elem_of_app, elem_of_cons in Hit2; rewrite elem_of_app, elem_of_cons, !elem_of_app; tauto).
      assert (it = it2) as <- by (eapply (item_unique blk); [apply Ho|done|done|by apply elem_of_list_fmap_1|by apply elem_of_list_fmap_1]).
      assert (it = p) as ->.
      { unfold pipes in Hitp. apply elem_of_list_filter in Hitp as [Hc _]. apply elem_of_app in Hit2 as [H|[->|H]%elem_of_cons]; [exfalso; by apply (filter_nil_not _ _ _ Epre H)|done|exfalso; apply (filter_nil_not _ _ it Erg); [rewrite Er; apply elem_of_app; by left|done]]. }
      pose proof Hpb as Hpl2. apply elem_of_list_lookup in Hpl2 as (t & Ht). rewrite <- Ea in Hd. rewrite (reach_op_dep blk o r p t) in Hd; try done. apply Hrgb. rewrite Er. apply elem_of_app. right. left. }
    assert (forall l1 l2, effects (l1 ++ l2) = effects l1 ++ effects l2) as Happ by (intros; unfold effects, names; by rewrite filter_app, fmap_app).
    assert (effects p = [] /\ effects q = []) as [Xp Xq].
    { split; apply effects_pipe; intros o Hin1; apply Hpure; [apply elem_concat; by exists p|by apply Hpp|apply elem_concat; by exists q|by apply Hqp]. }
    split.
    - rewrite Eblk'. assert (concat blk = concat (pre ++ p :: rg ++ q :: post)) as -> by (by rewrite <- Eblk). repeat (rewrite !concat_app; cbn [concat]). rewrite !Happ, Xp, Xq. cbn. f_equal. rewrite app_assoc. f_equal.
      clear - Hnone Happ. induction rg as [|it rg IH]; [done|]. rewrite !filter_cons. destruct (op_dep blk it a) eqn:E.
      + rewrite (decide_False (P := true = false)), (decide_True (P := true = true)) by done. cbn [concat]. rewrite !Happ. rewrite <- (IH ltac:(intros; apply Hnone; [by right|done])).
        assert (effects (concat (filter (fun it0 => op_dep blk it0 a = false) rg)) = []) as ->; [|done].
        assert (forall it0, it0 ∈ rg -> op_dep blk it0 a = false -> effects it0 = []) as Hn by (intros; apply Hnone; [by right|done]). clear - Hn Happ. induction rg as [|it rg IH]; [done|]. rewrite filter_cons. destruct (decide (op_dep blk it a = false)).
        * cbn [concat]. rewrite Happ, IH by (intros; apply Hn; [by right|done]). rewrite Hn; [done|left|done].
        * apply IH. intros; apply Hn; [by right|done].
      + rewrite (decide_True (P := false = false)), (decide_False (P := false = true)) by done. cbn [concat]. rewrite !Happ. rewrite (Hnone it) by (done || left). cbn. apply IH. intros; apply Hnone; [by right|done].
    - assert (NoDup blk') as Hnb' by (apply wf_nodup; apply Hinv').
      assert (forall e, (exists it r, it ∈ pipes cls (cls a) blk /\ r ∈ it /\ reach (concat blk) (o_id e) (o_id r)) -> exists it r, it ∈ pipes cls (cls a) blk' /\ r ∈ it /\ reach (concat blk') (o_id e) (o_id r)) as Htr.
      { intros e (it & r & Hit & Hr & Hre). rewrite Ep in Hit. rewrite Ep'. apply elem_of_cons in Hit as [->|[->|Hit]%elem_of_cons].
        - exists (p ++ q), r. split; [left|]. split; [apply elem_of_app; by left|]. by rewrite (reach_perm _ _ _ _ HP).
        - exists (p ++ q), r. split; [left|]. split; [apply elem_of_app; by right|]. by rewrite (reach_perm _ _ _ _ HP).
        - exists it, r. split; [by right|]. split; [done|]. by rewrite (reach_perm _ _ _ _ HP). }
      assert (forall it, it ∈ rest -> it ∈ post /\ it ∈ pipes cls (cls a) blk) as Hrest. { intros it Hit. split; [|rewrite Ep; do 2 right; done]. rewrite <- Epost in Hit. unfold pipes in Hit. by apply elem_of_list_filter in Hit as [_ Hit]. }
      assert (forall it, it ∈ post -> it ∉ pre ++ filter (fun it => op_dep blk it a = false) rg ++ (p ++ q) :: filter (fun it => op_dep blk it a = true) rg) as Hsep.
      { intros it Hit Hit2. rewrite Eblk' in Hnb'. rewrite (app_assoc _ _ post) in Hnb' || idtac.
        assert (NoDup ((pre ++ filter (fun it => op_dep blk it a = false) rg ++ (p ++ q) :: filter (fun it => op_dep blk it a = true) rg) ++ post)) as Hn2 by (revert Hnb'; by na).
        apply NoDup_app in Hn2 as (_ & Hn2 & _). by apply (Hn2 it). }
      intros k1 p1 k2 e k3 q1 k4 E Hp1 Hq1 Hee. apply Htr. rewrite Ep' in Hp1, Hq1.
      assert (q1 ∈ k4 \/ True) as _ by (by right).
      assert (forall v x, post = v ++ [e] :: k3 ++ q1 :: k4 -> x ∈ v \/ x = q -> x ∈ pipes cls (cls a) blk -> q1 ∈ rest -> exists it r, it ∈ pipes cls (cls a) blk /\ r ∈ it /\ reach (concat blk) (o_id e) (o_id r)) as Hold.
      { intros v x Ev Hx Hxp Hqr. destruct Hx as [Hx| ->].
        - apply elem_of_list_split in Hx as (v1 & v2 & ->). eapply (Heff (pre ++ p :: rg ++ q :: v1) x v2 e k3 q1 k4); [rewrite Eblk, Ev; by na|done|by apply Hrest|done].
        - eapply (Heff (pre ++ p :: rg) q v e k3 q1 k4); [rewrite Eblk, Ev; by na|done|by apply Hrest|done]. }
      set (first := pre ++ filter (fun it => op_dep blk it a = false) rg ++ (p ++ q) :: filter (fun it => op_dep blk it a = true) rg) in *.
      assert (blk' = first ++ post) as Esp by (rewrite Eblk'; unfold first; by na).
      assert (q1 ∈ rest -> [e] ∉ first -> exists v, post = v ++ [e] :: k3 ++ q1 :: k4 /\ (p1 ∈ first \/ p1 ∈ v)) as Hpost.
      { intros Hqr Hef. rewrite Esp in E. destruct (split_after [e] (k1 ++ p1 :: k2) first (k3 ++ q1 :: k4) post) as (v & Ev); [done|by na|]. exists v. split; [done|].
        assert (k1 ++ p1 :: k2 = first ++ v) as E3. { apply (app_inv_tail ([e] :: k3 ++ q1 :: k4)). na. rewrite <- E, Ev. done. }
        assert (p1 ∈ first ++ v) as H by (rewrite <- E3; apply elem_of_app; right; left). by apply elem_of_app in H. }
      assert (q1 ∈ rest) as Hqr.
      { apply elem_of_cons in Hq1 as [->|?]; [exfalso|done]. apply elem_of_cons in Hp1 as [->|Hp1].
        - rewrite E in Hnb'. apply NoDup_app in Hnb' as (_ & _ & H). apply NoDup_cons in H as [H _]. apply H. rewrite !elem_of_app, elem_of_cons, elem_of_app, elem_of_cons. tauto.
        - destruct (Hrest p1 Hp1) as [Hpp1 _]. rewrite Esp in E. destruct (split_after p1 k1 first (k2 ++ [e] :: k3 ++ (p ++ q) :: k4) post) as (v & Ev); [by apply Hsep|done|].
          apply (Hsep (p ++ q)); [rewrite Ev, elem_of_app, elem_of_cons, elem_of_app, elem_of_cons, elem_of_app, elem_of_cons; tauto|]. unfold first. rewrite !elem_of_app, elem_of_cons. tauto. }
      destruct (decide ([e] ∈ first)) as [Hef|Hef].
      + apply elem_of_cons in Hp1 as [->|Hp1].
        * (* behind the new pipeline: it was between the two *)
          assert ([e] ∈ rg) as Herg.
          { assert (k1 = pre ++ filter (fun it => op_dep blk it a = false) rg /\ k2 ++ [e] :: k3 ++ q1 :: k4 = filter (fun it => op_dep blk it a = true) rg ++ post) as [-> E2].
            { apply (nodup_split (p ++ q)); [rewrite <- E; done|]. rewrite <- E, Eblk'. by na. }
            destruct (decide ([e] ∈ filter (fun it => op_dep blk it a = true) rg)) as [H|H]; [by apply elem_of_list_filter in H as [_ H]|].
            destruct (split_after [e] k2 _ _ _ H E2) as (v & Ev). exfalso. apply (Hsep [e]); [rewrite Ev; apply elem_of_app; right; left|done]. }
          apply elem_of_list_split in Herg as (rg1 & rg2 & Er). eapply (Heff pre p rg1 e rg2 q post); [rewrite Eblk, Er; by na|done..].
        * exfalso. destruct (Hrest p1 Hp1) as [Hpp1 _]. rewrite Esp in E. destruct (split_after p1 k1 first (k2 ++ [e] :: k3 ++ q1 :: k4) post) as (v & Ev); [by apply Hsep|done|].
          apply (Hsep [e]); [rewrite Ev, elem_of_app, elem_of_cons, elem_of_app, elem_of_cons; tauto|done].
      + destruct (Hpost Hqr Hef) as (v & Ev & Hv). apply elem_of_cons in Hp1 as [->|Hp1].
        * apply (Hold v q); [done|by right|done|done].
        * destruct (Hrest p1 Hp1) as [Hpp1 Hpp2]. apply (Hold v p1); [done|left|done|done]. destruct Hv as [Hv|?]; [|done]. exfalso. by apply (Hsep p1).
  Qed.
End effects.
