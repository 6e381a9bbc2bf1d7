From stdpp Require Import base numbers sorting list.
From Coq Require Import Lia.
From Verif Require Import CppBase OrderProofs FusionModel FusionSpec.

(** * Evaluation does not depend on the order *)
Section eval.
  Context {V : Type} (f : nat -> list V -> V).
  Lemma eval_app l k env : eval f (l ++ k) env = eval f k (eval f l env).
  Proof. revert env. induction l as [|y l IH]; intros env; cbn; [done|]. apply IH. Qed.
  Lemma eval_other l : forall env x, x ∉ names l -> eval f l env x = env x.
  Proof.
    induction l as [|y l IH]; intros env x Hx; cbn [eval]; [done|]. cbn in Hx. apply not_elem_of_cons in Hx as [Hne Hx]. rewrite IH by done. unfold set. by rewrite decide_False by done.
  Qed.
  Lemma eval_eq l k y env : NoDup (names (l ++ y :: k)) -> (forall z, z ∈ y :: k -> o_id z ∉ uses y) -> eval f (l ++ y :: k) env (o_id y) = f (o_id y) (map (eval f (l ++ y :: k) env) (uses y)).
  Proof.
    intros Hnd Hu. unfold names in Hnd. rewrite fmap_app, fmap_cons in Hnd. apply NoDup_app in Hnd as (_ & _ & Hnd). apply NoDup_cons in Hnd as [Hy _]. rewrite eval_app. cbn [eval]. rewrite eval_other by done. unfold set at 1. rewrite decide_True by done. f_equal. apply map_ext_in. intros a Ha%elem_of_list_In.
    assert (a ∉ names (y :: k)) as Hn. { intros (z & -> & Hz)%elem_of_list_fmap. by apply (Hu z). }
    rewrite (eval_other k) by (intros H; apply Hn; by apply elem_of_list_further). unfold set. rewrite decide_False; [done|]. intros ->. apply Hn. by left.
  Qed.
  Lemma eval_in l y env : ordered l -> y ∈ l -> eval f l env (o_id y) = f (o_id y) (map (eval f l env) (uses y)).
  Proof.
    intros (Hnd & Hs & Hi) (l1 & l2 & ->)%elem_of_list_split. apply eval_eq; [done|]. intros z [-> | Hz]%elem_of_cons.
    - rewrite Forall_forall in Hi. apply Hi. apply elem_of_app. right. by left.
    - apply ss_app_iff in Hs as (_ & Hs & _). apply StronglySorted_inv in Hs as [_ Hs]. rewrite Forall_forall in Hs. by apply Hs.
  Qed.
  Lemma eval_perm l k env : l ≡ₚ k -> ordered l -> ordered k -> forall x, eval f l env x = eval f k env x.
  Proof.
    intros Hp Hl Hk. assert (forall l1 l2, l = l1 ++ l2 -> forall x, x ∈ names l1 -> eval f l env x = eval f k env x) as H.
    { induction l1 as [|y l1 IH] using rev_ind; intros l2 El x Hx; [by apply elem_of_nil in Hx|]. unfold names in Hx. rewrite fmap_app in Hx. rewrite <- app_assoc in El. apply elem_of_app in Hx as [Hx|Hx]; [by apply (IH _ El)|]. apply elem_of_list_singleton in Hx. subst x.
      assert (y ∈ l) as Hy by (rewrite El; apply elem_of_app; right; by left). rewrite (eval_in l y env Hl Hy). rewrite (eval_in k y env Hk) by (by rewrite <- Hp). f_equal. apply map_ext_in. intros a Ha%elem_of_list_In.
      destruct (decide (a ∈ names l1)) as [Hin|Hnin]; [by apply (IH _ El)|]. assert (a ∉ names l) as Hna.
      { rewrite El. unfold names. rewrite fmap_app. intros [?|H]%elem_of_app; [done|]. apply elem_of_list_fmap in H as (z & -> & Hz). destruct Hl as (_ & Hs & Hi). rewrite El in Hs, Hi. apply ss_app_iff in Hs as (_ & Hs & _). apply StronglySorted_inv in Hs as [_ Hs]. rewrite Forall_forall in Hs. apply elem_of_cons in Hz as [-> | Hz].
        - rewrite Forall_forall in Hi. by apply (Hi y); [apply elem_of_app; right; left|]. 
        - by apply (Hs z). }
      rewrite !eval_other; [done| |done]. unfold names. by rewrite <- Hp. }
    intros x. destruct (decide (x ∈ names l)) as [Hx|Hx]; [by apply (H l []); [by rewrite app_nil_r|]|]. rewrite !eval_other; [done| |done]. unfold names. by rewrite <- Hp.
  Qed.
End eval.

(** * Positions *)
Lemma pos_from_shift blk v : forall k, pos_from k blk v = (fun i => k + i) <$> pos_from 0 blk v.
Proof.
  induction blk as [|it blk IH]; intros k; cbn [pos_from]; [done|]. case_decide; cbn; [f_equal; lia|]. rewrite (IH (S k)), (IH 1). destruct (pos_from 0 blk v); cbn; [f_equal; lia|done].
Qed.
Lemma pos_cons it blk v : pos (it :: blk) v = if decide (v ∈ names it) then Some 0 else S <$> pos blk v.
Proof. unfold pos. cbn [pos_from]. case_decide; [done|]. by rewrite pos_from_shift. Qed.
Lemma pos_inv blk v : forall i, pos blk v = Some i -> exists it, blk !! i = Some it /\ v ∈ names it.
Proof.
  induction blk as [|it blk IH]; intros i; [done|]. rewrite pos_cons. case_decide; [intros [= <-]; by exists it|]. destruct (pos blk v) as [j|]; [|done]. intros [= <-]. cbn. by apply IH.
Qed.
Lemma names_concat blk v : v ∈ names (concat blk) <-> exists i it, blk !! i = Some it /\ v ∈ names it.
Proof.
  unfold names. rewrite elem_of_list_fmap. split.
  - intros (o & -> & Ho). apply elem_concat in Ho as (it & Hit & Ho). apply elem_of_list_lookup in Hit as (i & Hi). exists i, it. split; [done|]. by apply elem_of_list_fmap_1.
  - intros (i & it & Hi & (o & -> & Ho)%elem_of_list_fmap). exists o. split; [done|]. apply elem_concat. exists it. split; [by eapply elem_of_list_lookup_2|done].
Qed.
Lemma names_app l k : names (l ++ k) = names l ++ names k.
Proof. apply fmap_app. Qed.
Lemma pos_lookup blk i it v : NoDup (names (concat blk)) -> blk !! i = Some it -> v ∈ names it -> pos blk v = Some i.
Proof.
  revert i. induction blk as [|it' blk IH]; intros i Hnd Hi Hv; [done|]. rewrite pos_cons. cbn [concat] in Hnd. rewrite names_app in Hnd. apply NoDup_app in Hnd as (_ & Hd & Hnd). destruct i as [|i]; cbn in Hi.
  - injection Hi as ->. by rewrite decide_True by done.
  - rewrite decide_False; [by rewrite (IH i)|]. intros H. apply (Hd v H). apply names_concat. eauto.
Qed.
Lemma pos_is_Some blk v : NoDup (names (concat blk)) -> v ∈ names (concat blk) -> exists i, pos blk v = Some i.
Proof. intros Hnd (i & it & Hi & Hv)%names_concat. exists i. by eapply pos_lookup. Qed.
Lemma op_of_in blk o : NoDup (names (concat blk)) -> o ∈ concat blk -> op_of blk (o_id o) = Some o.
Proof.
  unfold op_of. generalize (concat blk). intros l Hnd Ho. induction l as [|y l IH]; [by apply elem_of_nil in Ho|]. cbn. apply NoDup_cons in Hnd as [Hy Hnd]. case_decide as E.
  - cbn. apply elem_of_cons in Ho as [-> | Ho]; [done|]. exfalso. apply Hy. rewrite E. by apply elem_of_list_fmap_1.
  - apply elem_of_cons in Ho as [-> | Ho]; [done|]. specialize (IH Hnd Ho). destruct (list_find _ l) as [[]|]; [|done]. cbn in *. done.
Qed.
Lemma op_of_inv blk v o : op_of blk v = Some o -> o ∈ concat blk /\ o_id o = v.
Proof.
  unfold op_of. destruct (list_find _ _) as [[i x]|] eqn:E; [|done]. intros [= <-]. apply list_find_Some in E as (E1 & E2 & _). split; [by eapply elem_of_list_lookup_2|done].
Qed.

(** * Creating one pipeline loses and duplicates nothing *)
Lemma elem_keep pipe blk it : it ∈ keep pipe blk <-> it ∈ blk /\ forall v, v ∈ names it -> v ∉ pipe.
Proof. unfold keep. rewrite elem_of_list_filter, Forall_forall. tauto. Qed.
Lemma keep_app pipe b1 b2 : keep pipe (b1 ++ b2) = keep pipe b1 ++ keep pipe b2.
Proof. unfold keep. apply filter_app. Qed.
Lemma keep_drop pipe it b v : v ∈ names it -> v ∈ pipe -> keep pipe (it :: b) = keep pipe b.
Proof. intros Hv Hp. unfold keep. rewrite filter_cons_False; [done|]. rewrite Forall_forall. intros H. by apply (H v). Qed.
Lemma keep_id pipe b : (forall it v, it ∈ b -> v ∈ names it -> v ∉ pipe) -> keep pipe b = b.
Proof.
  intros H. unfold keep. induction b as [|it b IH]; [done|]. rewrite filter_cons_True; [f_equal; apply IH; intros it' v Hi; apply H; by right|]. apply Forall_forall. intros v. apply H. by left.
Qed.
Lemma classify_perm blk pipe rp : (forall p, p ∈ rp -> p ∈ pipe) -> forall rg k,
  keep pipe (fst (classify blk rp k rg)) ++ keep pipe (snd (classify blk rp k rg)) ≡ₚ keep pipe rg.
Proof.
  intros Hrp. induction rg as [|it rg IH]; intros k; [done|]. cbn [classify]. destruct (match rp !! k with Some p => bool_decide (p ∈ names it) | None => false end) eqn:E.
  - destruct (rp !! k) as [p|] eqn:Ep; [|done]. apply bool_decide_eq_true in E. rewrite (keep_drop pipe it rg p) by (try done; by eapply Hrp, elem_of_list_lookup_2). apply IH.
  - specialize (IH k). destruct (existsb (op_dep blk it) (take k rp)); cbn [fst snd]; unfold keep in *; rewrite !filter_cons; case_decide; try done.
    + rewrite <- IH. by rewrite Permutation_middle.
    + cbn. by rewrite IH.
Qed.

Lemma NoDup_reverse {A} (l : list A) : NoDup l -> NoDup (reverse l).
Proof. by rewrite reverse_Permutation. Qed.
Definition members_ok (blk : list (list vop)) (pipe : list nat) : Prop := NoDup pipe /\ forall v, v ∈ pipe -> exists o, [o] ∈ blk /\ o_id o = v.
Lemma NoDup_fmap_inv {A B} (g : A -> B) (l : list A) : NoDup (g <$> l) -> NoDup l.
Proof. apply NoDup_fmap_1. Qed.
Lemma sublist_NoDup {A} (l k : list A) : sublist l k -> NoDup k -> NoDup l.
Proof.
  induction 1 as [|x l k H IH|x l k H IH]; intros Hn; [done| |]; apply NoDup_cons in Hn as [Hx Hn]; [|by apply IH].
  apply NoDup_cons. split; [|by apply IH]. intros Hl. apply Hx. by eapply elem_of_submseteq, sublist_submseteq.
Qed.
Lemma sublist_keep pipe blk : sublist (concat (keep pipe blk)) (concat blk).
Proof.
  induction blk as [|it blk IH]; [done|]. unfold keep. rewrite filter_cons. cbn [concat]. case_decide.
  - cbn [concat]. by apply sublist_app.
  - by apply sublist_inserts_l.
Qed.
Lemma item_unique blk it it' v : NoDup (names (concat blk)) -> it ∈ blk -> it' ∈ blk -> v ∈ names it -> v ∈ names it' -> it = it'.
Proof.
  intros Hnd Hi Hi' Hv Hv'. apply elem_of_list_lookup in Hi as (i & Hi). apply elem_of_list_lookup in Hi' as (j & Hj). pose proof (pos_lookup _ _ _ _ Hnd Hi Hv). pose proof (pos_lookup _ _ _ _ Hnd Hj Hv'). assert (i = j) as -> by congruence. congruence.
Qed.
Lemma members_ops blk pipe : NoDup (names (concat blk)) -> members_ok blk pipe -> names (omap (op_of blk) pipe) = pipe /\ forall x, x ∈ omap (op_of blk) pipe <-> x ∈ concat blk /\ o_id x ∈ pipe.
Proof.
  intros Hnd (_ & Hm). induction pipe as [|v pipe IH].
  { split; [done|]. intros x. cbn. split; [by intros ?%elem_of_nil|]. by intros [_ ?%elem_of_nil]. }
  destruct IH as [IH1 IH2]. { intros w Hw. apply Hm. by right. }
  destruct (Hm v) as (o & Ho & <-); [by left|]. assert (o ∈ concat blk) as Hin. { apply elem_concat. exists [o]. split; [done|]. by left. }
  cbn. rewrite (op_of_in blk o Hnd Hin). cbn. split; [by f_equal|]. intros x. rewrite !elem_of_cons. rewrite IH2. split.
  - intros [-> | [? ?]]; [tauto|]. tauto.
  - intros [Hx [E|?]]; [|tauto]. left. assert (Some x = Some o) as [= ->]; [|done]. rewrite <- (op_of_in blk x Hnd Hx). rewrite E. by apply op_of_in.
Qed.
Lemma keep_perm blk pipe : NoDup (names (concat blk)) -> members_ok blk pipe -> concat (keep pipe blk) ++ omap (op_of blk) (reverse pipe) ≡ₚ concat blk.
Proof.
  intros Hnd Hm. assert (members_ok blk (reverse pipe)) as Hr. { destruct Hm as [H1 H2]. split; [by apply NoDup_reverse|]. intros v Hv. apply H2. by rewrite elem_of_reverse in Hv. }
  destruct (members_ops _ _ Hnd Hr) as [E1 E2]. assert (forall x, x ∈ concat (keep pipe blk) -> o_id x ∉ pipe) as Hk.
  { intros x (it & Hit & Hx)%elem_concat. apply elem_keep in Hit as [_ Hit]. apply Hit. by apply elem_of_list_fmap_1. }
  apply NoDup_Permutation.
  - apply NoDup_app. split; [|split].
    + eapply sublist_NoDup; [apply sublist_keep|]. by eapply NoDup_fmap_inv.
    + intros x Hx (_ & Hp)%E2. rewrite elem_of_reverse in Hp. by apply (Hk x).
    + apply (NoDup_fmap_inv o_id). change (NoDup (names (omap (op_of blk) (reverse pipe)))). rewrite E1. apply NoDup_reverse, Hm.
  - by eapply NoDup_fmap_inv.
  - intros x. rewrite elem_of_app, E2, elem_of_reverse. split.
    + intros [H|[H _]]; [|done]. by eapply elem_of_submseteq; [|apply sublist_submseteq, sublist_keep].
    + intros Hx. destruct (decide (o_id x ∈ pipe)) as [Hp|Hp]; [by right|]. left. apply elem_concat in Hx as (it & Hit & Hx). apply elem_concat. exists it. split; [|done]. apply elem_keep. split; [done|]. intros v Hv Hvp. destruct Hm as [_ Hm]. destruct (Hm v Hvp) as (o & Ho & <-). assert (it = [o]) as ->. { eapply item_unique; [done|done|done|done|]. by left. } apply elem_of_list_singleton in Hx. by subst x.
Qed.
Lemma split3 {A} (l : list A) s e x : s <= e -> l !! e = Some x -> l = take s l ++ take (e - s) (drop s l) ++ x :: drop (S e) l.
Proof.
  intros H Hx. rewrite <- (take_drop s l) at 1. f_equal. rewrite <- (take_drop (e - s) (drop s l)) at 1. f_equal. rewrite drop_drop. replace (s + (e - s)) with e by lia. by apply drop_S.
Qed.
Lemma create_inv blk pipe blk' : pipe <> [] -> create blk pipe = Ok blk' -> exists front tl s e it,
  pipe = front :: tl /\ pos blk (default 0 (last pipe)) = Some s /\ pos blk front = Some e /\ s <= e /\ blk !! e = Some it /\ front ∈ names it /\
  let r := classify blk (reverse pipe) 0 (take (e - s) (drop s blk)) in
  blk' = keep pipe (take s blk) ++ keep pipe (fst r) ++ [omap (op_of blk) (reverse pipe)] ++ keep pipe (snd r) ++ keep pipe (drop (S e) blk).
Proof.
  destruct pipe as [|front tl]; [done|]. intros _. unfold create. destruct (pos blk _) as [s|] eqn:Es; [|done]. destruct (pos blk front) as [e|] eqn:Ee; [|done]. case_decide; [|done]. intros [= <-]. destruct (pos_inv _ _ _ Ee) as (it & Hit & Hf). exists front, tl, s, e, it. repeat split; try done.
Qed.
Lemma concat_perm {A} (l k : list (list A)) : l ≡ₚ k -> concat l ≡ₚ concat k.
Proof.
  induction 1; cbn [concat]; [done| by apply Permutation_app_head | | by etrans].
  rewrite !app_assoc. apply Permutation_app_tail. apply Permutation_app_comm.
Qed.
Lemma create_perm blk pipe blk' : NoDup (names (concat blk)) -> members_ok blk pipe -> create blk pipe = Ok blk' ->
  concat blk' ≡ₚ concat blk /\ (pipe <> [] -> blk' ≡ₚ keep pipe blk ++ [omap (op_of blk) (reverse pipe)]).
Proof.
  intros Hnd Hm Hc. destruct (decide (pipe = [])) as [->|Hne]. { cbn in Hc. injection Hc as <-. done. }
  destruct (create_inv _ _ _ Hne Hc) as (front & tl & s & e & it & Ep & Hs & He & Hle & Hit & Hf & Hb). cbn zeta in Hb. set (rg := take (e - s) (drop s blk)) in *.
  assert (blk' ≡ₚ keep pipe blk ++ [omap (op_of blk) (reverse pipe)]) as HP.
  { rewrite Hb. rewrite (split3 blk s e it Hle Hit) at 6. fold rg. rewrite !keep_app. rewrite (keep_drop pipe it _ front) by (try done; rewrite Ep; by left). rewrite <- (classify_perm blk pipe (reverse pipe) ltac:(intros p; by rewrite elem_of_reverse) rg 0).
    set (X := keep pipe (take s blk)). set (Y := keep pipe (fst (classify _ _ _ _))). set (Z := keep pipe (snd (classify _ _ _ _))). set (W := keep pipe (drop _ _)). rewrite <- !app_assoc. do 2 apply Permutation_app_head. rewrite (app_assoc Z W [_]). apply Permutation_app_comm. }
  split; [|done]. rewrite (concat_perm _ _ HP). rewrite concat_app. cbn [concat]. rewrite app_nil_r. by apply keep_perm.
Qed.

(** * Forming the pipelines *)
Lemma lookup_map_cons m c ix v : lookup_map ((c, ix) :: m) v = if decide (c = v) then Some ix else lookup_map m v.
Proof. unfold lookup_map. cbn. case_decide; cbn; [done|]. by destruct (list_find _ m) as [[]|]. Qed.
Lemma lookup_map_many old m ix v : lookup_map (((fun o => (o, ix)) <$> old) ++ m) v = if decide (v ∈ old) then Some ix else lookup_map m v.
Proof.
  induction old as [|o old IH]; cbn [fmap list_fmap app]; [done|]. rewrite lookup_map_cons. rewrite IH. destruct (decide (o = v)) as [->|Hne].
  - rewrite decide_True by (by left). done.
  - destruct (decide (v ∈ old)) as [H|H]; [rewrite decide_True by (by right); done|]. rewrite decide_False; [done|]. intros [E|E]%elem_of_cons; congruence.
Qed.
Lemma concat_insert {A} (ps : list (list A)) i p k : ps !! i = Some p -> concat (<[i := p ++ k]> ps) ≡ₚ k ++ concat ps.
Proof.
  intros H. rewrite (insert_take_drop ps i) by (by eapply lookup_lt_Some). rewrite <- (take_drop_middle ps i p H) at 3. rewrite !concat_app. cbn [concat]. rewrite <- !app_assoc. symmetry. etrans; [apply Permutation_app_comm|]. rewrite <- !app_assoc. do 2 apply Permutation_app_head. apply Permutation_app_comm.
Qed.
Lemma concat_empty {A} (ps : list (list A)) i p : ps !! i = Some p -> concat ps ≡ₚ p ++ concat (<[i := []]> ps).
Proof.
  intros H. rewrite (insert_take_drop ps i) by (by eapply lookup_lt_Some). rewrite <- (take_drop_middle ps i p H) at 1. rewrite !concat_app. cbn [concat app]. rewrite !app_assoc. apply Permutation_app_tail. apply Permutation_app_comm.
Qed.
Lemma in_concat_lookup {A} (ps : list (list A)) c : c ∈ concat ps <-> exists i p, ps !! i = Some p /\ c ∈ p.
Proof.
  rewrite elem_concat. split.
  - intros (p & Hp & Hc). apply elem_of_list_lookup in Hp as (i & Hi). eauto.
  - intros (i & p & Hi & Hc). exists p. split; [by eapply elem_of_list_lookup_2|done].
Qed.

Record finv (blk : list (list vop)) (D : list nat) (m : list (nat * nat)) (ps : list (list nat)) : Prop := {
  fi_nd : NoDup (concat ps);
  fi_vec : forall c, c ∈ concat ps -> exists o, o ∈ concat blk /\ o_id o = c /\ o_vec o = true;
  fi_map : forall c i, lookup_map m c = Some i -> exists p, ps !! i = Some p /\ c ∈ p;
  fi_in : forall c, c ∈ concat ps -> lookup_map m c <> None \/ c ∈ D }.

Lemma greedy_inv blk D m ps ix c st' : finv blk D m ps -> (exists p, ps !! ix = Some p) -> (exists o, o ∈ concat blk /\ o_id o = c /\ o_vec o = true) -> c ∉ D ->
  greedy blk ix (Ok (m, ps)) c = Ok st' -> finv blk D (fst st') (snd st') /\ exists p, snd st' !! ix = Some p.
Proof.
  intros [I1 I2 I3 I4] (cur & Hcur) Hc HD. unfold greedy. cbn [obind fst snd]. rewrite Hcur. cbn [default]. unfold id. destruct (lookup_map m c) as [ex|] eqn:El.
  - case_decide as Hne; [done|]. intros [= <-]. cbn [fst snd]. destruct (I3 _ _ El) as (old & Hold & Hco). rewrite Hold. cbn [default]. unfold id.
    assert (ps' : <[ix:=cur ++ old]> ps !! ex = Some old) by (by rewrite list_lookup_insert_ne).
    assert (concat (<[ex:=[]]> (<[ix:=cur ++ old]> ps)) ≡ₚ concat ps) as HP.
    { pose proof (concat_empty _ _ _ ps') as H1. rewrite (concat_insert ps ix cur old Hcur) in H1. by apply Permutation_app_inv_l in H1. }
    split.
    + split.
      * by rewrite HP.
      * intros d. rewrite HP. apply I2.
      * intros d i. rewrite lookup_map_many. case_decide as Hd.
        -- intros [= <-]. exists (cur ++ old). split; [|apply elem_of_app; by right]. rewrite list_lookup_insert_ne by done. apply list_lookup_insert. by eapply lookup_lt_Some.
        -- intros Hi. destruct (I3 _ _ Hi) as (p & Hp & Hdp). destruct (decide (i = ex)) as [->|He]; [congruence|]. rewrite list_lookup_insert_ne by done. destruct (decide (i = ix)) as [->|Hx].
           ++ exists (cur ++ old). split; [apply list_lookup_insert; by eapply lookup_lt_Some|]. apply elem_of_app. left. congruence.
           ++ exists p. by rewrite list_lookup_insert_ne.
      * intros d. rewrite HP. intros Hd. rewrite lookup_map_many. case_decide; [by left|]. by apply I4.
    + exists (cur ++ old). rewrite list_lookup_insert_ne by done. apply list_lookup_insert. by eapply lookup_lt_Some.
  - destruct (fusible blk c cur); intros [= <-]; cbn [fst snd]; [|by split; [split|eauto]]. split; [|exists (cur ++ [c]); apply list_lookup_insert; by eapply lookup_lt_Some]. pose proof (concat_insert ps ix cur [c] Hcur) as HP. split.
    + rewrite HP. apply NoDup_cons. split; [|done]. intros H. destruct (I4 _ H); congruence.
    + intros d. rewrite HP. intros [-> | Hd]%elem_of_cons; [done|by apply I2].
    + intros d i. rewrite lookup_map_cons. case_decide as E.
      * intros [= <-]. subst d. exists (cur ++ [c]). split; [apply list_lookup_insert; by eapply lookup_lt_Some|]. apply elem_of_app. right. by left.
      * intros Hi. destruct (I3 _ _ Hi) as (p & Hp & Hdp). destruct (decide (i = ix)) as [->|Hx].
        -- exists (cur ++ [c]). split; [apply list_lookup_insert; by eapply lookup_lt_Some|]. apply elem_of_app. left. congruence.
        -- exists p. by rewrite list_lookup_insert_ne.
    + intros d. rewrite HP. rewrite lookup_map_cons. intros [-> | Hd]%elem_of_cons; [left; by rewrite decide_True|]. case_decide; [by left|]. by apply I4.
Qed.
Lemma greedy_err blk ix st c : (forall x, st <> Ok x) -> greedy blk ix st c = st.
Proof. destruct st; [|done|done]. intros H. exfalso. by eapply H. Qed.
Lemma fold_greedy_err blk ix cs st : (forall x, st <> Ok x) -> foldl (greedy blk ix) st cs = st.
Proof. induction cs as [|c cs IH]; cbn; [done|]. intros H. rewrite greedy_err by done. by apply IH. Qed.
Lemma fold_greedy_inv blk D ix cs : forall m ps st', finv blk D m ps -> (exists p, ps !! ix = Some p) ->
  (forall c, c ∈ cs -> (exists o, o ∈ concat blk /\ o_id o = c /\ o_vec o = true) /\ c ∉ D) -> foldl (greedy blk ix) (Ok (m, ps)) cs = Ok st' -> finv blk D (fst st') (snd st').
Proof.
  induction cs as [|c cs IH]; intros m ps st' HI Hp Hc; cbn [foldl]. { by intros [= <-]. }
  destruct (greedy blk ix (Ok (m, ps)) c) as [[m1 ps1]| |] eqn:E; [|rewrite fold_greedy_err by done; done..].
  destruct (Hc c) as [Hco HD]; [by left|]. destruct (greedy_inv _ _ _ _ _ _ _ HI Hp Hco HD E) as [HI' Hp']. intros H. eapply (IH m1 ps1); try done. intros d Hd. apply Hc. by right.
Qed.
Lemma in_cands blk v c : c ∈ cands blk v -> c ∈ o_args v /\ exists o, o ∈ concat blk /\ o_id o = c /\ o_vec o = true /\ o_comb o = true /\ (c, true) ∈ zip (o_args v) (o_rows v).
Proof.
  unfold cands. intros ([a b] & Hc & Hz)%elem_of_list_bind. cbn [fst snd] in Hc. destruct (op_of blk a) as [d|] eqn:Ed; [|by apply elem_of_nil in Hc]. apply op_of_inv in Ed as [Hd Ed].
  destruct (o_vec d) eqn:E1, (qualified blk a (o_id v)), b, (o_comb d) eqn:E2; cbn in Hc; try (by apply elem_of_nil in Hc). apply elem_of_list_singleton in Hc. subst. split; [exact (elem_of_zip_l _ _ _ _ Hz)|]. exists d. done.
Qed.
Lemma collect_inv blk D m ps v st' : finv blk D m ps -> v ∈ concat blk -> o_vec v = true -> o_id v ∉ D -> (forall c, c ∈ uses v -> c ∉ o_id v :: D) -> 
  (o_id v ∈ concat ps -> lookup_map m (o_id v) <> None) ->
  collect blk (Ok (m, ps)) v = Ok st' -> finv blk (o_id v :: D) (fst st') (snd st').
Proof.
  intros HI Hv Hvv HD Hu Hm. unfold collect. cbn [obind fst snd].
  assert (forall c, c ∈ cands blk v -> (exists o, o ∈ concat blk /\ o_id o = c /\ o_vec o = true) /\ c ∉ o_id v :: D) as Hc.
  { intros c (Ha & o & Ho & Eo & Ev & _)%in_cands. split; [eauto|]. apply Hu. unfold uses. apply elem_of_app. by left. }
  destruct (lookup_map m (o_id v)) as [ix|] eqn:El.
  - apply fold_greedy_inv; [| |done].
    + destruct HI as [I1 I2 I3 I4]. split; [done..|]. intros c Hcc. destruct (I4 c Hcc); [by left|right; by right].
    + destruct (fi_map _ _ _ _ HI _ _ El) as (p & ? & _). eauto.
  - apply fold_greedy_inv; [| |done].
    + destruct HI as [I1 I2 I3 I4]. assert (concat (ps ++ [[o_id v]]) = concat ps ++ [o_id v]) as E by (by rewrite concat_app; cbn [concat]; rewrite app_nil_r). split; try rewrite E.
      * apply NoDup_app. split; [done|split; [|apply NoDup_singleton]]. intros x Hx ->%elem_of_list_singleton. by apply Hm in Hx.
      * intros c [Hcc | ->%elem_of_list_singleton]%elem_of_app; [by apply I2|eauto].
      * intros c i Hi. destruct (I3 _ _ Hi) as (p & Hp & Hcp). exists p. split; [|done]. apply lookup_app_l_Some. done.
      * intros c [Hcc | ->%elem_of_list_singleton]%elem_of_app; [destruct (I4 c Hcc); [by left|right; by right]|right; by left].
    + exists [o_id v]. apply list_lookup_middle. done.
Qed.
Lemma collect_err blk st v : (forall x, st <> Ok x) -> collect blk st v = st.
Proof. destruct st; [|done|done]. intros H. exfalso. by eapply H. Qed.
Lemma fold_collect_err blk vs st : (forall x, st <> Ok x) -> foldl (collect blk) st vs = st.
Proof. induction vs as [|c cs IH]; cbn; [done|]. intros H. rewrite collect_err by done. by apply IH. Qed.

Lemma ss_reverse {A} (R : A -> A -> Prop) l : StronglySorted R l -> StronglySorted (fun x y => R y x) (reverse l).
Proof.
  induction 1 as [|x l Hs IH Hx]; [constructor|]. rewrite reverse_cons. apply ss_app_iff. split; [done|split; [by repeat constructor|]]. intros y z Hy Hz. rewrite elem_of_reverse in Hy. apply elem_of_list_singleton in Hz. subst z. rewrite Forall_forall in Hx. by apply Hx.
Qed.
Lemma ss_sub {A} (R : A -> A -> Prop) l k : sublist l k -> StronglySorted R k -> StronglySorted R l.
Proof.
  induction 1 as [|x l k H IH|x l k H IH]; intros Hs; [done| |]; apply StronglySorted_inv in Hs as [Hs Hx]; [|by apply IH].
  constructor; [by apply IH|]. rewrite Forall_forall in Hx |- *. intros y Hy. apply Hx. by eapply elem_of_submseteq, sublist_submseteq.
Qed.
Lemma fold_collect_inv blk : forall vs D m ps st', finv blk D m ps -> (forall v, v ∈ vs -> (v ∈ concat blk /\ o_vec v = true) /\ o_id v ∉ D /\ o_id v ∉ uses v /\ forall c, c ∈ uses v -> c ∉ D) -> NoDup (names vs) ->
  StronglySorted (fun x y => o_id x ∉ uses y) vs -> foldl (collect blk) (Ok (m, ps)) vs = Ok st' -> finv blk (reverse (names vs) ++ D) (fst st') (snd st').
Proof.
  induction vs as [|v vs IH]; intros D m ps st' HI Hv Hnd Hs; cbn [foldl]. { by intros [= <-]. }
  destruct (collect blk (Ok (m, ps)) v) as [[m1 ps1]| |] eqn:E; [|rewrite fold_collect_err by done; done..]. cbn [names fmap list_fmap] in Hnd. change (names (v :: vs)) with (o_id v :: names vs) in *. apply NoDup_cons in Hnd as [Hn Hnd]. apply StronglySorted_inv in Hs as [Hs Hx]. rewrite Forall_forall in Hx.
  destruct (Hv v) as ([H1 H1v] & H2 & H3 & H4); [by left|]. assert (finv blk (o_id v :: D) m1 ps1) as HI'.
  { apply (collect_inv blk D m ps v (m1, ps1)); try done.
    - intros c Hc [-> | Hd]%elem_of_cons; [done|by apply (H4 c)].
    - intros Hin. destruct (fi_in _ _ _ _ HI _ Hin); done. }
  intros H. rewrite reverse_cons, <- app_assoc. apply (IH (o_id v :: D) m1 ps1); try done. intros w Hw. destruct (Hv w) as (W1 & W2 & W3 & W4); [by right|]. split; [done|]. split; [|split; [done|]].
  - intros [Ew|?]%elem_of_cons; [|done]. apply Hn. rewrite <- Ew. by apply elem_of_list_fmap_1.
  - intros c Hc [-> | Hd]%elem_of_cons; [by apply (Hx w)|by apply (W4 c)].
Qed.
Lemma concat_single {A} (l : list A) : concat ((fun o => [o]) <$> l) = l.
Proof. induction l as [|x l IH]; cbn; [done|]. by f_equal. Qed.
Lemma vec_order ops : ordered ops -> let vs := reverse (filter (fun o => o_vec o = true) ops) in
  NoDup (names vs) /\ StronglySorted (fun x y => o_id x ∉ uses y) vs /\ (forall v, v ∈ vs <-> v ∈ ops /\ o_vec v = true) /\ forall v, v ∈ vs -> o_id v ∉ uses v.
Proof.
  intros (Hnd & Hs & Hi) vs. assert (sublist (filter (fun o => o_vec o = true) ops) ops) as Hsub.
  { clear. induction ops as [|x l IH]; [done|]. rewrite filter_cons. case_decide; by constructor. }
  split; [|split; [|split]].
  - unfold names, vs. rewrite reverse_Permutation. eapply sublist_NoDup; [|exact Hnd]. unfold names. clear - Hsub. induction Hsub; cbn; by constructor.
  - unfold vs. apply ss_reverse in Hs. apply (ss_reverse (fun y z => o_id z ∉ uses y)). eapply ss_sub; [done|]. apply ss_reverse in Hs. by rewrite reverse_involutive in Hs.
  - intros v. unfold vs. rewrite elem_of_reverse, elem_of_list_filter. tauto.
  - intros v. unfold vs. rewrite elem_of_reverse, elem_of_list_filter. intros [_ Hv]. rewrite Forall_forall in Hi. by apply Hi.
Qed.
Lemma pipelines_inv ops st : ordered ops -> pipelines ((fun o => [o]) <$> ops) = Ok st -> NoDup (concat (snd st)) /\ forall c, c ∈ concat (snd st) -> exists o, o ∈ ops /\ o_id o = c /\ o_vec o = true.
Proof.
  intros Ho. destruct (vec_order ops Ho) as (V1 & V2 & V3 & V4). unfold pipelines. rewrite concat_single. intros H.
  assert (finv ((fun o => [o]) <$> ops) (reverse (names (reverse (filter (fun o => o_vec o = true) ops))) ++ []) (fst st) (snd st)) as [I1 I2 I3 I4].
  { eapply fold_collect_inv; [| |done|done|exact H].
    - split; cbn; [constructor| |done|]; by intros c ?%elem_of_nil.
    - intros v Hv. rewrite concat_single. split; [by apply V3 in Hv|]. split; [by apply not_elem_of_nil|]. split; [by apply V4|]. intros c _. apply not_elem_of_nil. }
  split; [done|]. intros c Hc. destruct (I2 c Hc) as (o & Hin & <- & Hov). rewrite concat_single in Hin. eauto.
Qed.

(** All pipelines *)
Definition create_all (blk : outcome (list (list vop))) (ps : list (list nat)) : outcome (list (list vop)) := foldl (fun b p => let* b := b in create b p) blk ps.
Lemma create_all_err ps st : (forall x, st <> Ok x) -> create_all st ps = st.
Proof. revert st. induction ps as [|p ps IH]; intros st H; [done|]. unfold create_all in *. cbn [foldl]. destruct st; [by edestruct H| |]; cbn [obind]; apply IH; done. Qed.
Lemma names_perm l k : l ≡ₚ k -> names l ≡ₚ names k.
Proof. intros H. unfold names. by rewrite H. Qed.
Lemma members_other blk p q blk' : NoDup (names (concat blk)) -> members_ok blk p -> members_ok blk q -> create blk p = Ok blk' -> (forall v, v ∈ p -> v ∉ q) -> members_ok blk' q.
Proof.
  intros Hnd Hp Hq Hc Hd. destruct (create_perm _ _ _ Hnd Hp Hc) as [_ HP]. destruct (decide (p = [])) as [->|Hne]; [cbn in Hc; by injection Hc as <-|]. specialize (HP Hne). destruct Hq as [Q1 Q2]. split; [done|]. intros v Hv. destruct (Q2 v Hv) as (o & Ho & <-). exists o. split; [|done]. rewrite HP. apply elem_of_app. left. apply elem_keep. split; [done|]. intros w Hw Hwp. apply elem_of_list_singleton in Hw. subst w. by apply (Hd (o_id o)).
Qed.
Lemma create_all_perm ps : forall blk blk', NoDup (names (concat blk)) -> NoDup (concat ps) -> (forall p, p ∈ ps -> members_ok blk p) -> create_all (Ok blk) ps = Ok blk' -> concat blk' ≡ₚ concat blk.
Proof.
  induction ps as [|p ps IH]; intros blk blk' Hnd Hps Hm; unfold create_all; cbn [foldl obind]. { by intros [= <-]. }
  destruct (create blk p) as [b1| |] eqn:E; [|fold (create_all Throw ps); rewrite create_all_err by done; done|fold (create_all UB ps); rewrite create_all_err by done; done].
  - intros H. assert (members_ok blk p) as Hmp by (apply Hm; by left). destruct (create_perm _ _ _ Hnd Hmp E) as [HP _]. cbn [concat] in Hps. apply NoDup_app in Hps as (_ & Hd & Hps). rewrite <- HP. apply (IH b1 blk'); try done.
    + by rewrite (names_perm _ _ HP).
    + intros q Hq. eapply (members_other blk p); try done; [apply Hm; by right|]. intros v Hv Hvq. apply (Hd v Hv). apply elem_concat. eauto.
Qed.
Lemma members_single ops p : (forall c, c ∈ p -> exists o, o ∈ ops /\ o_id o = c) -> NoDup p -> members_ok ((fun o => [o]) <$> ops) p.
Proof. intros H Hn. split; [done|]. intros v Hv. destruct (H v Hv) as (o & Ho & <-). exists o. split; [|done]. by apply (elem_of_list_fmap_1 (fun o => [o])). Qed.
Lemma NoDup_concat_in {A} (ps : list (list A)) p : NoDup (concat ps) -> p ∈ ps -> NoDup p.
Proof. intros H (l & k & ->)%elem_of_list_split. rewrite concat_app in H. cbn [concat] in H. by apply NoDup_app in H as (_ & _ & (H & _)%NoDup_app). Qed.
Lemma vectorize_perm ops blk' : ordered ops -> vectorize ops = Ok blk' -> concat blk' ≡ₚ ops.
Proof.
  intros Ho. unfold vectorize. destruct (pipelines _) as [st| |] eqn:E; [|done..]. cbn [obind]. destruct (pipelines_inv ops st Ho E) as [P1 P2]. intros H. rewrite <- (concat_single ops) at 1. eapply (create_all_perm (snd st)); try done.
  - rewrite concat_single. apply Ho.
  - intros p Hp. apply members_single; [|by eapply NoDup_concat_in]. intros c Hc. destruct (P2 c) as (o & ? & ? & _); [apply elem_concat; eauto|eauto].
Qed.

(** * Dependencies *)
Lemma later blk i k itA itB y z : ordered (concat blk) -> blk !! i = Some itA -> blk !! k = Some itB -> i < k -> y ∈ itA -> z ∈ itB -> o_id z ∉ uses y.
Proof.
  intros (_ & Hs & _) Hi Hk Hlt Hy Hz. rewrite <- (take_drop_middle blk i itA Hi) in Hs. rewrite concat_app in Hs. cbn [concat] in Hs. apply ss_app_iff in Hs as (_ & Hs & _). apply ss_app_iff in Hs as (_ & _ & Hs). apply Hs; [done|]. apply elem_concat. exists itB. split; [|done]. apply elem_of_list_lookup. exists (k - S i). rewrite lookup_drop. rewrite <- Hk. f_equal. lia.
Qed.
Lemma in_operands it a : a ∈ operands it <-> a ∉ names it /\ exists y, y ∈ it /\ a ∈ o_args y.
Proof.
  unfold operands. rewrite elem_of_list_filter, elem_of_list_bind. split.
  - intros (H & y & Ha & Hy). eauto.
  - intros (H & y & Hy & Ha). eauto.
Qed.
Lemma args_uses y a : a ∈ o_args y -> a ∈ uses y.
Proof. intros H. unfold uses. apply elem_of_app. by left. Qed.
Lemma operand_before blk i it a k : ordered (concat blk) -> blk !! i = Some it -> a ∈ operands it -> pos blk a = Some k -> k < i.
Proof.
  intros Ho Hi (Hn & y & Hy & Ha)%in_operands Hk. destruct (pos_inv _ _ _ Hk) as (itk & Hitk & (z & -> & Hz)%elem_of_list_fmap). destruct (decide (k = i)) as [->|Hne].
  - exfalso. apply Hn. assert (itk = it) as -> by congruence. by apply elem_of_list_fmap_1.
  - destruct (decide (k < i)) as [|Hge]; [done|]. exfalso. assert (o_id z ∉ uses y) as H by (eapply (later blk i k); try done; lia). by apply H, args_uses.
Qed.
(** [a] is defined by an item with a member of the pipeline *)
Definition in_item (blk : list (list vop)) (M : list nat) (a : nat) : Prop := exists k it v, pos blk a = Some k /\ blk !! k = Some it /\ v ∈ names it /\ v ∈ M.
(** an item without members which uses a value of an item with a member *)
Definition outside_use (blk : list (list vop)) (M : list nat) (i : nat) : Prop :=
  exists j it b, blk !! j = Some it /\ j <= i /\ (forall v, v ∈ names it -> v ∉ M) /\ b ∈ operands it /\ in_item blk M b.
Lemma item_dec (M : list nat) (it : list vop) : (exists v, v ∈ names it /\ v ∈ M) \/ forall v, v ∈ names it -> v ∉ M.
Proof.
  induction it as [|o it IH]; [right; by intros v ?%elem_of_nil|]. destruct (decide (o_id o ∈ M)) as [H|H]; [left; exists (o_id o); split; [by left|done]|]. destruct IH as [(v & Hv & Hm)|IH]; [left; exists v; split; [by right|done]|]. right. intros v [-> | Hv]%elem_of_cons; [done|by apply IH].
Qed.
Lemma dep_out blk M t : ordered (concat blk) -> (exists it v, blk !! t = Some it /\ v ∈ names it /\ v ∈ M) -> forall fuel a, value_dep fuel blk a t = true ->
  in_item blk M a \/ exists i, pos blk a = Some i /\ outside_use blk M i.
Proof.
  intros Ho Ht. induction fuel as [|fuel IH]; intros a; cbn [value_dep]; [done|]. destruct (pos blk a) as [i|] eqn:Ea; [|done]. case_decide as E1.
  { intros _. subst i. left. destruct Ht as (it & v & H1 & H2 & H3). exists t, it, v. done. }
  case_decide as E2; [done|]. destruct (pos_inv _ _ _ Ea) as (it & Hi & Hv). rewrite Hi. intros (b & Hb%elem_of_list_In & Hd)%existsb_exists. destruct (item_dec M it) as [(v & Hvi & Hvm)|Hno]; [left; by exists i, it, v|]. right. exists i. split; [done|].
  destruct (IH b Hd) as [Hin|(k & Hk & Hout)].
  - exists i, it, b. done.
  - destruct Hout as (j & it' & b' & J1 & J2 & J3). pose proof (operand_before _ _ _ _ _ Ho Hi Hb Hk). exists j, it', b'. repeat split; try done; try apply J3. lia.
Qed.

(** * Every value used at most once *)
Lemma used_once_op l y1 y2 c : used_once l -> y1 ∈ l -> y2 ∈ l -> c ∈ names l -> c ∈ uses y1 -> c ∈ uses y2 -> y1 = y2.
Proof.
  intros Hu (l1 & l2 & E)%elem_of_list_split H2 Hc U1 U2. assert (H2' := H2). rewrite E in H2'. apply elem_of_app in H2' as [Hin|[->|Hin]%elem_of_cons]; [|done|].
  - exfalso. unfold used_once in Hu. set (N := names l) in *. clearbody N. rewrite E in Hu. rewrite bind_app, filter_app in Hu. apply NoDup_app in Hu as (_ & Hu & _). apply (Hu c).
    + apply elem_of_list_filter. split; [done|]. apply elem_of_list_bind. eauto.
    + apply elem_of_list_filter. split; [done|]. apply elem_of_list_bind. exists y1. split; [done|]. by left.
  - exfalso. unfold used_once in Hu. set (N := names l) in *. clearbody N. rewrite E in Hu. rewrite bind_app, filter_app in Hu. apply NoDup_app in Hu as (_ & _ & Hu). cbn [mbind list_bind] in Hu. rewrite filter_app in Hu. apply NoDup_app in Hu as (_ & Hu & _). apply (Hu c).
    + apply elem_of_list_filter. done.
    + apply elem_of_list_filter. split; [done|]. apply elem_of_list_bind. eauto.
Qed.
Lemma used_once_in l y : used_once l -> y ∈ l -> NoDup (filter (fun a => a ∈ names l) (uses y)).
Proof.
  intros Hu (l1 & l2 & E)%elem_of_list_split. unfold used_once in Hu. set (N := names l) in *. clearbody N. rewrite E in Hu. rewrite bind_app, filter_app in Hu. apply NoDup_app in Hu as (_ & _ & Hu). cbn [mbind list_bind] in Hu. rewrite filter_app in Hu. by apply NoDup_app in Hu as (Hu & _ & _).
Qed.
Lemma used_once_perm l k : l ≡ₚ k -> used_once l -> used_once k.
Proof.
  intros H. unfold used_once. intros Hu. assert (filter (fun a => a ∈ names k) (k ≫= uses) = filter (fun a => a ∈ names l) (k ≫= uses)) as ->.
  { apply list_filter_iff. intros x. unfold names. by rewrite H. }
  by rewrite <- H.
Qed.

(** A pipeline whose operations other than the first are only used by operations that come earlier in it *)
Definition chain (l : list vop) (pipe : list nat) : Prop :=
  forall l1 c l2, pipe = l1 ++ c :: l2 -> l1 <> [] -> exists y, y ∈ l /\ o_id y ∈ l1 /\ c ∈ uses y.

Section tree.
  Context (blk : list (list vop)) (Ho : ordered (concat blk)) (Hu : used_once (concat blk)) (front : nat) (tl : list nat) (e : nat).
  Notation pipe := (front :: tl).
  Context (Hm : members_ok blk pipe) (Hch : chain (concat blk) pipe) (He : pos blk front = Some e).
  Let Hnd : NoDup (names (concat blk)) := proj1 Ho.

  Lemma tail_user v y : v ∈ tl -> y ∈ concat blk -> v ∈ uses y -> exists l1 l2, pipe = l1 ++ v :: l2 /\ o_id y ∈ l1.
  Proof.
    intros Hv Hy Hvy. apply elem_of_list_split in Hv as (k1 & k2 & Ek). exists (front :: k1), k2. split; [by rewrite Ek|]. destruct (Hch (front :: k1) v k2) as (y' & Y1 & Y2 & Y3); [by rewrite Ek|done|]. assert (y = y') as ->; [|done]. eapply used_once_op; try done. destruct Hm as [_ Hmm]. destruct (Hmm v) as (o & Hin & <-); [rewrite Ek; right; apply elem_of_app; right; by left|]. apply elem_of_list_fmap_1. apply elem_concat. exists [o]. split; [done|by left].
  Qed.
  Lemma member_item v : v ∈ pipe -> exists i o, pos blk v = Some i /\ blk !! i = Some [o] /\ o_id o = v.
  Proof. intros Hv. destruct Hm as [_ Hmm]. destruct (Hmm v Hv) as (o & Hin & <-). apply elem_of_list_lookup in Hin as (i & Hi). exists i, o. split; [|done]. eapply pos_lookup; try done. by left. Qed.
  Lemma member_pos : forall n l1 v l2, length l1 < n -> pipe = l1 ++ v :: l2 -> exists i, pos blk v = Some i /\ i <= e /\ (l1 <> [] -> i < e).
  Proof.
    induction n as [|n IH]; intros l1 v l2 Hn E; [lia|]. destruct (decide (l1 = [])) as [->|Hne]. { cbn in E. injection E as <- <-. exists e. by split. }
    destruct (Hch l1 v l2 E Hne) as (y & Hy & Hyl & Hvy). apply elem_of_list_split in Hyl as (k1 & k2 & Ek). destruct (IH k1 (o_id y) (k2 ++ v :: l2)) as (j & Hj & Hje & _). { rewrite Ek, app_length in Hn. cbn in Hn. lia. } { rewrite E, Ek, <- app_assoc. done. }
    destruct (member_item v) as (i & o & Hi & Hio & Eo); [rewrite E; apply elem_of_app; right; by left|]. exists i. split; [done|].
    assert (i < j); [|lia]. destruct (pos_inv _ _ _ Hj) as (itj & Hitj & Hyj). assert (y ∈ itj) as Hyin. { apply elem_concat in Hy as (it' & Hit' & Hyi). assert (it' = itj) as <-; [|done]. eapply item_unique; try done; [by eapply elem_of_list_lookup_2|]. by apply elem_of_list_fmap_1. }
    destruct (decide (i < j)) as [|Hge]; [done|]. exfalso. destruct (decide (i = j)) as [->|Hij].
    - assert (itj = [o]) as -> by congruence. apply elem_of_list_singleton in Hyin. subst y. pose proof Ho as (_ & _ & Hs). rewrite Forall_forall in Hs. apply (Hs o Hy). by rewrite Eo.
    - assert (o_id o ∉ uses y) as H by (eapply (later blk j i itj [o]); try done; [lia|by left]). rewrite Eo in H. done.
  Qed.
  Lemma member_le v : v ∈ pipe -> exists i, pos blk v = Some i /\ i <= e.
  Proof. intros (l1 & l2 & E)%elem_of_list_split. destruct (member_pos (S (length l1)) l1 v l2) as (i & ? & ? & _); [lia|done|eauto]. Qed.
  (** No item before the front that is not in the pipeline uses a member *)
  Lemma no_outside_use i : i < e -> outside_use blk pipe i -> False.
  Proof.
    intros Hi (j & it & b & Hj & Hji & Hno & Hb & (k & itk & v & Hk & Hitk & Hvk & Hvp)). apply in_operands in Hb as (Hnb & y & Hy & Hby). destruct (member_item v Hvp) as (k' & o & Hk' & Hko & Eo). assert (k' = k) as ->. { pose proof (pos_lookup _ _ _ _ Hnd Hitk Hvk). congruence. }
    assert (itk = [o]) as -> by congruence. destruct (pos_inv _ _ _ Hk) as (it2 & Hit2 & Hb2). assert (it2 = [o]) as -> by congruence. apply elem_of_list_singleton in Hb2. assert (b = v) as -> by congruence. clear Hb2.
    assert (y ∈ concat blk) as Hyc. { apply elem_concat. exists it. split; [by eapply elem_of_list_lookup_2|done]. }
    apply elem_of_cons in Hvp as [Ev|Hvt].
    - assert (k = e) as -> by congruence. assert (o_id o ∉ uses y) as H by (eapply (later blk j e it [o]); try done; [lia|by left]). rewrite Eo in H. by apply H, args_uses.
    - destruct (tail_user v y Hvt Hyc (args_uses _ _ Hby)) as (l1 & l2 & E & Hin). apply (Hno (o_id y)); [by apply elem_of_list_fmap_1|]. rewrite E. apply elem_of_app. by left.
  Qed.
  Lemma not_dep i it p : i < e -> blk !! i = Some it -> (forall v, v ∈ names it -> v ∉ pipe) -> p ∈ pipe -> op_dep blk it p = false.
  Proof.
    intros Hi Hit Hno Hp. apply not_true_is_false. unfold op_dep. destruct (member_item p Hp) as (t & o & Ht & Hto & Eo). rewrite Ht. intros (a & Ha%elem_of_list_In & Hd)%existsb_exists. apply (dep_out blk pipe t Ho) in Hd as [Hin|(k & Hk & Hout)].
    - apply (no_outside_use i Hi). exists i, it, a. repeat split; done.
    - pose proof (operand_before _ _ _ _ _ Ho Hit Ha Hk). apply (no_outside_use k); [lia|done].
    - exists [o], p. repeat split; try done. rewrite <- Eo. by left.
  Qed.
  Lemma classify_none rg : (forall it, it ∈ rg -> exists i, i < e /\ blk !! i = Some it) -> forall k, let r := classify blk (reverse pipe) k rg in keep pipe (fst r) = keep pipe rg /\ keep pipe (snd r) = [].
  Proof.
    induction rg as [|it rg IH]; intros Hrg k; [done|]. cbn [classify]. assert (forall it, it ∈ rg -> exists i, i < e /\ blk !! i = Some it) as Hrg' by (intros it' H; apply Hrg; by right). destruct (match reverse pipe !! k with Some p => bool_decide (p ∈ names it) | None => false end) eqn:E.
    - destruct (reverse pipe !! k) as [p|] eqn:Ep; [|done]. apply bool_decide_eq_true in E. rewrite (keep_drop pipe it rg p) by (try done; apply elem_of_list_lookup_2 in Ep; by rewrite elem_of_reverse in Ep). by apply IH.
    - destruct (IH Hrg' k) as [IH1 IH2]. destruct (existsb (op_dep blk it) (take k (reverse pipe))) eqn:Ed; cbn [fst snd].
      + split.
        * rewrite IH1. unfold keep. rewrite filter_cons. case_decide as Hf; [|done]. exfalso. rewrite Forall_forall in Hf. apply existsb_exists in Ed as (p & Hp%elem_of_list_In & Hd). destruct (Hrg it) as (i & Hi & Hit); [by left|]. rewrite (not_dep i it p) in Hd; try done. apply elem_of_take in Hp as (? & Hp & _). apply elem_of_list_lookup_2 in Hp. by rewrite elem_of_reverse in Hp.
        * unfold keep in *. rewrite filter_cons. case_decide as Hf; [|done]. exfalso. rewrite Forall_forall in Hf. apply existsb_exists in Ed as (p & Hp%elem_of_list_In & Hd). destruct (Hrg it) as (i & Hi & Hit); [by left|]. rewrite (not_dep i it p) in Hd; try done. apply elem_of_take in Hp as (? & Hp & _). apply elem_of_list_lookup_2 in Hp. by rewrite elem_of_reverse in Hp.
      + split; [|done]. unfold keep in *. rewrite !filter_cons. case_decide; [by f_equal|done].
  Qed.
  Lemma create_tree : create blk pipe = Ok (keep pipe (take e blk) ++ [omap (op_of blk) (reverse pipe)] ++ drop (S e) blk).
  Proof.
    unfold create. assert (exists lst, last pipe = Some lst /\ lst ∈ pipe) as (lst & El & Hl).
    { destruct (last pipe) as [x|] eqn:E; [|by apply last_None in E]. exists x. split; [done|]. by apply last_Some_elem_of. }
    rewrite El. cbn [default]. unfold id. destruct (member_le lst Hl) as (s & Hs & Hse). rewrite Hs, He. rewrite decide_True by done. f_equal.
    destruct (pos_inv _ _ _ He) as (ite & Hite & _).
    assert (take e blk = take s blk ++ take (e - s) (drop s blk)) as Et. { rewrite <- (take_drop s (take e blk)). rewrite take_take, skipn_firstn_comm. f_equal. f_equal. lia. }
    destruct (classify_none (take (e - s) (drop s blk))) with (k := 0) as [C1 C2].
    { intros it (i & Hi)%elem_of_list_lookup. apply lookup_take_Some in Hi as [Hi Hlt]. rewrite lookup_drop in Hi. exists (s + i). split; [lia|done]. }
    rewrite C1, C2. cbn [app]. rewrite Et, keep_app. rewrite <- app_assoc. do 3 f_equal. apply keep_id. intros it v (i & Hi)%elem_of_list_lookup Hv Hp. rewrite lookup_drop in Hi. pose proof (pos_lookup _ _ _ _ Hnd Hi Hv). destruct (member_le v Hp) as (j & Hj & ?). assert (j = S e + i) by congruence. lia.
  Qed.

  Lemma item_member it v : it ∈ blk -> v ∈ names it -> v ∈ pipe -> exists o, it = [o] /\ o_id o = v.
  Proof. intros Hit Hv Hp. destruct Hm as [_ Hmm]. destruct (Hmm v Hp) as (o & Hin & Eo). exists o. split; [|done]. eapply item_unique; try done. rewrite <- Eo. by left. Qed.
  Notation result := (keep pipe (take e blk) ++ [omap (op_of blk) (reverse pipe)] ++ drop (S e) blk).
  Lemma front_op : exists f, blk !! e = Some [f] /\ o_id f = front.
  Proof. destruct (member_item front) as (i & f & Hi & Hf & Ef); [by left|]. assert (i = e) as -> by congruence. eauto. Qed.
  Lemma concat_split f : blk !! e = Some [f] -> concat blk = concat (take e blk) ++ f :: concat (drop (S e) blk).
  Proof. intros H. rewrite <- (take_drop_middle blk e [f] H) at 1. rewrite concat_app. done. Qed.
  Lemma in_before y : y ∈ concat (keep pipe (take e blk)) -> y ∈ concat (take e blk) /\ o_id y ∉ pipe.
  Proof.
    intros (it & Hit & Hy)%elem_concat. apply elem_keep in Hit as [Hit Hno]. split; [apply elem_concat; eauto|]. apply Hno. by apply elem_of_list_fmap_1.
  Qed.
  Lemma in_pipe_ops y : y ∈ omap (op_of blk) (reverse pipe) -> y ∈ concat blk /\ o_id y ∈ pipe.
  Proof.
    intros H. assert (members_ok blk (reverse pipe)) as Hr. { destruct Hm as [H1 H2]. split; [by apply NoDup_reverse|]. intros v Hv. apply H2. by rewrite elem_of_reverse in Hv. }
    destruct (members_ops _ _ Hnd Hr) as [_ E2]. apply E2 in H. by rewrite elem_of_reverse in H.
  Qed.
  Lemma result_perm : concat result ≡ₚ concat blk.
  Proof. by eapply create_perm; [| |exact create_tree]. Qed.
  Lemma op_eq y z : y ∈ concat blk -> z ∈ concat blk -> o_id y = o_id z -> y = z.
  Proof. intros Hy Hz E. pose proof (op_of_in blk y Hnd Hy) as H1. rewrite E, (op_of_in blk z Hnd Hz) in H1. by injection H1. Qed.
  Lemma result_ordered : ordered (concat result).
  Proof.
    split; [|split].
    - rewrite (names_perm _ _ result_perm). done.
    - destruct front_op as (f & Hf & Ef). pose proof (concat_split f Hf) as Ec. pose proof Ho as (_ & Hs & Hself). rewrite Ec in Hs. apply ss_app_iff in Hs as (S1 & S2 & S3). apply StronglySorted_inv in S2 as [S2 S4]. rewrite Forall_forall in S4, Hself.
      assert (forall y z, y ∈ concat blk -> z ∈ concat (drop (S e) blk) -> y ∉ concat (drop (S e) blk) -> o_id z ∉ uses y) as Hpre.
      { intros y z Hy Hz Hyn. rewrite Ec in Hy. apply elem_of_app in Hy as [Hy|[->|Hy]%elem_of_cons]; [|by apply S4|done]. apply S3; [done|]. by right. }
      assert (forall y, y ∈ concat (drop (S e) blk) -> o_id y ∉ pipe) as Hdrop.
      { intros y (it & (i & Hi)%elem_of_list_lookup & Hy)%elem_concat Hp. rewrite lookup_drop in Hi. pose proof (pos_lookup _ _ _ (o_id y) Hnd Hi ltac:(by apply elem_of_list_fmap_1)). destruct (member_le _ Hp) as (j & Hj & ?). assert (j = S e + i) by congruence. lia. }
      rewrite !concat_app. cbn [concat]. rewrite app_nil_r. apply ss_app_iff. split; [|split; [apply ss_app_iff; split; [|split]|]].
      + eapply ss_sub; [apply sublist_keep|done].
      + (* inside the pipeline *)
        assert (StronglySorted (fun a b : nat => exists l1 l2 l3, pipe = l1 ++ a :: l2 ++ b :: l3) pipe) as Hss.
        { clear. assert (forall pre q, StronglySorted (fun a b : nat => exists l1 l2 l3, pre ++ q = l1 ++ a :: l2 ++ b :: l3) q) as H.
          { intros pre q. revert pre. induction q as [|a q IH]; intros pre; constructor.
            - specialize (IH (pre ++ [a])). by rewrite <- app_assoc in IH.
            - apply Forall_forall. intros b (k1 & k2 & ->)%elem_of_list_split. by exists pre, k1, k2. }
          apply (H [] pipe). }
        apply ss_reverse in Hss. assert (forall q, (forall v, v ∈ q -> v ∈ pipe) -> StronglySorted (fun x y : nat => exists l1 l2 l3, pipe = l1 ++ y :: l2 ++ x :: l3) q -> StronglySorted (fun y z => o_id z ∉ uses y) (omap (op_of blk) q)) as H.
        { induction q as [|v q IH]; intros Hq Hsq; [constructor|]. apply StronglySorted_inv in Hsq as [Hsq Hall]. rewrite Forall_forall in Hall. cbn. destruct (op_of blk v) as [o|] eqn:Eo; [|apply IH; [|done]; intros w Hw; apply Hq; by right]. constructor; [apply IH; [|done]; intros w Hw; apply Hq; by right|].
          apply Forall_forall. intros z (w & Hw & Ez)%elem_of_list_omap. apply op_of_inv in Eo as [Hoc Eo]. apply op_of_inv in Ez as [Hzc Ez]. intros Huse. destruct (Hall w Hw) as (l1 & l2 & l3 & El).
          (* o uses z, z comes earlier in the pipeline *)
          destruct l1 as [|x l1].
          - (* z is the front *)
            cbn in El. injection El as Ef2 Etl. assert (z = f) as -> by (apply op_eq; [done|rewrite Ec; apply elem_of_app; right; by left|congruence]).
            destruct (member_pos (S (length (w :: l2))) (w :: l2) v l3) as (i & Hi & _ & Hlt); [lia|by rewrite Ef2, Etl|]. specialize (Hlt ltac:(done)). destruct (pos_inv _ _ _ Hi) as (iti & Hiti & Hvi). destruct (item_member iti v) as (o' & -> & Eo'); [by eapply elem_of_list_lookup_2|done|apply Hq; by left|]. assert (o' = o) as ->. { apply op_eq; [|done|congruence]. apply elem_concat. exists [o']. split; [by eapply elem_of_list_lookup_2|by left]. }
            eapply (later blk i e [o] [f] o f); try done; by left.
          - cbn in El. injection El as Ex Etl. destruct (tail_user w o) as (k1 & k2 & Ek & Hin); [rewrite Etl; apply elem_of_app; right; by left|done|by rewrite <- Ez|].
            destruct Hm as [Hnp _]. rewrite Eo in Hin. rewrite Ek in Hnp. assert (E3 : k1 ++ w :: k2 = (x :: l1) ++ w :: l2 ++ v :: l3) by (rewrite <- Ek, Ex, Etl; done). assert (k1 = x :: l1 /\ k2 = l2 ++ v :: l3) as [-> ->].
            { assert (Hn2 : NoDup ((x :: l1) ++ w :: l2 ++ v :: l3)) by (by rewrite <- E3). clear - E3 Hnp Hn2. generalize dependent (x :: l1). generalize (l2 ++ v :: l3). intros b a E3 Hn2. revert a E3 Hn2. induction k1 as [|u k1 IH]; intros [|u' a] E3 Hn2; cbn in E3; pose proof (f_equal tail E3) as E5; pose proof (f_equal head E3) as E4; cbn in E4, E5; try injection E4 as E4; clear E3; try subst u; try subst u'; try done.
              - exfalso. cbn in Hn2. apply NoDup_cons in Hn2 as [Hn2 _]. apply Hn2. apply elem_of_app. right. by left.
              - exfalso. cbn in Hnp. apply NoDup_cons in Hnp as [Hnp _]. apply Hnp. apply elem_of_app. right. by left.
              - cbn in Hnp, Hn2. apply NoDup_cons in Hnp as [_ Hnp]. apply NoDup_cons in Hn2 as [_ Hn2]. destruct (IH Hnp a E5 Hn2) as [-> ->]. done. }
            apply NoDup_app in Hnp as (_ & Hnp & _). apply (Hnp v Hin). right. apply elem_of_app. right. by left. }
        apply H; [|done]. intros v. by rewrite elem_of_reverse.
      + done.
      + intros y z (Hy & Hyp)%in_pipe_ops Hz. apply Hpre; [done|done|]. intros Hd. by apply (Hdrop y).
      + intros y z (Hy & Hyp)%in_before Hz. assert (y ∈ concat blk) as Hyc by (rewrite Ec; apply elem_of_app; by left). apply elem_of_app in Hz as [(Hz & Hzp)%in_pipe_ops|Hz].
        * intros Huse. apply elem_of_cons in Hzp as [Ez|Hzt].
          -- assert (z = f) as -> by (apply op_eq; [done|rewrite Ec; apply elem_of_app; right; by left|congruence]). apply (S3 y f Hy); [by left|done].
          -- destruct (tail_user _ y Hzt Hyc Huse) as (l1 & l2 & El & Hin). apply Hyp. rewrite El. apply elem_of_app. by left.
        * apply S3; [done|by right].
    - rewrite Forall_forall. intros y. rewrite result_perm. pose proof Ho as (_ & _ & Hself). rewrite Forall_forall in Hself. apply Hself.
  Qed.
  Context (Hpure : forall o, o ∈ concat blk -> o_id o ∈ pipe -> o_eff o = false).
  Lemma effects_app l k : effects (l ++ k) = effects l ++ effects k.
  Proof. unfold effects. by rewrite filter_app, names_app. Qed.
  Lemma effects_none l : (forall o, o ∈ l -> o_eff o = false) -> effects l = [].
  Proof. induction l as [|y l IH]; intros H; [done|]. unfold effects. rewrite filter_cons_False; [apply IH; intros o Hin; apply H; by right|]. rewrite H; [done|by left]. Qed.
  Lemma effects_keep b : (forall it, it ∈ b -> it ∈ blk) -> effects (concat (keep pipe b)) = effects (concat b).
  Proof.
    induction b as [|it b IH]; intros Hb; [done|]. assert (effects (concat (keep pipe b)) = effects (concat b)) as IH' by (apply IH; intros it' H; apply Hb; by right). cbn [concat]. rewrite effects_app, <- IH'. unfold keep. rewrite filter_cons. case_decide as Hf.
    - cbn [concat]. by rewrite effects_app.
    - destruct (item_dec pipe it) as [(v & Hv & Hp)|Hno]; [|exfalso; apply Hf; by apply Forall_forall]. destruct (item_member it v) as (o & -> & Eo); [apply Hb; by left|done|done|]. rewrite (effects_none [o]); [done|]. intros o' ->%elem_of_list_singleton. apply Hpure; [|by rewrite Eo]. apply elem_concat. exists [o]. split; [apply Hb; by left|by left].
  Qed.
  Lemma result_effects : effects (concat result) = effects (concat blk).
  Proof.
    destruct front_op as (f & Hf & Ef). rewrite (concat_split f Hf). rewrite !concat_app, !effects_app. rewrite effects_keep. 2: { intros it (i & Hi)%elem_of_list_lookup. apply lookup_take_Some in Hi as [Hi _]. by eapply elem_of_list_lookup_2. } f_equal. change (f :: concat (drop (S e) blk)) with ([f] ++ concat (drop (S e) blk)). rewrite effects_app. f_equal. cbn [concat]. rewrite app_nil_r. rewrite !effects_none; [done| |].
    - intros o ->%elem_of_list_singleton. apply Hpure; [|rewrite Ef; by left]. rewrite (concat_split f Hf). apply elem_of_app. right. by left.
    - intros o (Hoc & Hp)%in_pipe_ops. by apply Hpure.
  Qed.
End tree.

(** * Forming the pipelines when every value is used at most once *)
Section form.
  Context (ops : list vop) (Ho : ordered ops) (Hu : used_once ops).
  Notation blk := ((fun o => [o]) <$> ops).
  Lemma Ho' : ordered (concat blk).
  Proof. by rewrite concat_single. Qed.
  Lemma Hu' : used_once (concat blk).
  Proof. by rewrite concat_single. Qed.
  Lemma single_item i it : blk !! i = Some it -> exists o, it = [o] /\ o ∈ ops.
  Proof. rewrite list_lookup_fmap. destruct (ops !! i) as [o|] eqn:E; [|done]. intros [= <-]. exists o. split; [done|]. by eapply elem_of_list_lookup_2. Qed.
  Lemma in_item_single M a : in_item blk M a -> a ∈ M.
  Proof.
    intros (k & it & v & Hk & Hit & Hv & Hm). destruct (single_item _ _ Hit) as (o & -> & _). apply elem_of_list_singleton in Hv. destruct (pos_inv _ _ _ Hk) as (it2 & Hit2 & Ha). assert (it2 = [o]) as -> by congruence. apply elem_of_list_singleton in Ha. by subst.
  Qed.
  Lemma fusible_tree front tl c v : members_ok blk (front :: tl) -> chain ops (front :: tl) -> v ∈ ops -> o_id v ∈ front :: tl -> c ∈ o_args v -> c ∈ names ops -> fusible blk c (front :: tl) = true.
  Proof.
    intros Hm Hch Hv Hvp Hcv Hc. unfold fusible. apply forallb_forall. intros p Hp%elem_of_list_In. destruct (op_of blk p) as [o|] eqn:Eo; [|done]. apply op_of_inv in Eo as [Hoc Eo]. rewrite concat_single in Hoc. apply forallb_forall. intros a Ha%elem_of_list_In.
    destruct (bool_decide (a ∈ front :: tl)) eqn:B1; [done|]. apply bool_decide_eq_false in B1. destruct (bool_decide (a = c)) eqn:B2; [done|]. apply bool_decide_eq_false in B2. cbn [orb]. apply negb_true_iff, not_true_is_false. destruct (pos blk c) as [t|] eqn:Et; [|done]. intros Hd.
    destruct (pos_inv _ _ _ Et) as (itc & Hitc & Hcc). apply (dep_out blk ((front :: tl) ++ [c]) t Ho') in Hd as [Hin|(i & Hi & Hout)].
    - apply in_item_single in Hin. apply elem_of_app in Hin as [?|Hin]; [done|]. by apply elem_of_list_singleton in Hin.
    - rewrite <- (concat_single ops) in Hch. destruct (pos_is_Some blk front) as (e & He). { apply Ho'. } { destruct Hm as [_ Hm]. destruct (Hm front) as (of & Hof & <-); [by left|]. apply elem_of_list_fmap_1. apply elem_concat. exists [of]. split; [done|by left]. }
      assert (i < e) as Hie.
      { destruct (member_le blk Ho' front tl e Hm Hch He p Hp) as (j & Hj & Hje). destruct (pos_inv _ _ _ Hj) as (itj & Hitj & Hpj). destruct (single_item _ _ Hitj) as (o' & -> & Ho2). apply elem_of_list_singleton in Hpj. assert (o' = o) as ->. { apply (op_eq blk Ho'); [by rewrite concat_single..|congruence]. }
        assert (i < j); [|lia]. eapply (operand_before blk j [o] a i Ho' Hitj); [|done]. apply in_operands. split; [|exists o; split; [by left|done]]. intros Hx%elem_of_list_singleton. subst a. apply B1. by rewrite Eo. }
      destruct Hout as (j & it & b & J1 & J2 & J3 & J4 & J5). pose proof (in_item_single _ _ J5) as Hb. apply elem_of_app in Hb as [Hb|Hb].
      + apply (no_outside_use blk Ho' Hu' front tl e Hm Hch He i Hie). exists j, it, b. repeat split; try done.
        * intros w Hw Hwp. apply (J3 w Hw). apply elem_of_app. by left.
        * destruct J5 as (k & itk & w & K1 & K2 & K3 & K4). exists k, itk, b. repeat split; try done. destruct (pos_inv _ _ _ K1) as (it2 & Hit2 & Hb2). assert (it2 = itk) as -> by congruence. done.
      + apply elem_of_list_singleton in Hb. subst b. apply in_operands in J4 as (_ & y & Hy & Hcy). destruct (single_item _ _ J1) as (y' & -> & Hy'). apply elem_of_list_singleton in Hy. subst y'.
        assert (y = v) as ->. { eapply used_once_op; try done; by apply args_uses. } apply (J3 (o_id v)); [by left|]. apply elem_of_app. by left.
    - exists itc, c. repeat split; try done. apply elem_of_app. right. by left.
  Qed.

  (** the operations other than the first are row-wise operands of earlier ones *)
  Definition rchain (p : list nat) : Prop := forall l1 c l2, p = l1 ++ c :: l2 -> l1 <> [] -> exists y, y ∈ ops /\ o_id y ∈ l1 /\ c ∈ cands blk y.
  Lemma rchain_chain p : rchain p -> chain ops p.
  Proof. intros H l1 c l2 E Hl. destruct (H l1 c l2 E Hl) as (y & Hy & Hyl & (Hc & _)%in_cands). exists y. split; [done|]. split; [done|]. by apply args_uses. Qed.
  Record tinv (D pre : list nat) (m : list (nat * nat)) (ps : list (list nat)) : Prop := {
    ti_ne : forall i p, ps !! i = Some p -> p <> [];
    ti_chain : forall i p, ps !! i = Some p -> rchain p;
    ti_map : forall c i, lookup_map m c = Some i -> c ∈ pre \/ exists y, y ∈ ops /\ o_id y ∈ D /\ c ∈ uses y;
    ti_fused : forall y c, y ∈ ops -> o_id y ∈ D -> c ∈ cands blk y -> exists i p, ps !! i = Some p /\ o_id y ∈ p /\ c ∈ p }.
  Lemma chain_snoc p c v : p <> [] -> rchain p -> v ∈ ops -> o_id v ∈ p -> c ∈ cands blk v -> rchain (p ++ [c]).
  Proof.
    intros Hne Hch Hv Hvp Hc l1 d l2 E Hl. destruct l2 as [|x l2] using rev_ind.
    - apply app_inj_tail in E as [<- <-]. eauto.
    - rewrite app_comm_cons, app_assoc in E. apply app_inj_tail in E as [-> _]. by eapply Hch.
  Qed.
  Lemma elem_names y : y ∈ ops -> o_id y ∈ names ops.
  Proof. apply elem_of_list_fmap_1. Qed.
  Lemma op_eq' y z : y ∈ ops -> z ∈ ops -> o_id y = o_id z -> y = z.
  Proof. intros Hy Hz. apply (op_eq blk Ho'); by rewrite concat_single. Qed.
  Lemma lookup_mono (ps : list (list nat)) ix cur k i p x : ps !! ix = Some cur -> ps !! i = Some p -> x ∈ p -> exists p', <[ix := cur ++ k]> ps !! i = Some p' /\ forall z, z ∈ p -> z ∈ p'.
  Proof.
    intros Hx Hi _. destruct (decide (i = ix)) as [->|Hne].
    - exists (cur ++ k). split; [apply list_lookup_insert; by eapply lookup_lt_Some|]. intros z Hz. apply elem_of_app. left. congruence.
    - exists p. split; [by rewrite list_lookup_insert_ne|done].
  Qed.
  Lemma greedy_tree D0 D pre m ps ix cur c v : finv blk D0 m ps -> tinv D pre m ps -> ps !! ix = Some cur -> v ∈ ops -> o_id v ∈ cur -> o_id v ∉ D -> c ∈ cands blk v -> c ∉ pre ->
    greedy blk ix (Ok (m, ps)) c = Ok ((c, ix) :: m, <[ix := cur ++ [c]]> ps) /\ tinv D (pre ++ [c]) ((c, ix) :: m) (<[ix := cur ++ [c]]> ps).
  Proof.
    intros HF HT Hcur Hv Hvc HvD Hc Hpre. destruct (in_cands _ _ _ Hc) as (Hca & oc & Hoc & Eoc & _). rewrite concat_single in Hoc.
    assert (c ∈ names ops) as Hcn by (rewrite <- Eoc; by apply elem_names).
    assert (lookup_map m c = None) as Hlm.
    { destruct (lookup_map m c) as [i|] eqn:E; [|done]. exfalso. destruct (ti_map _ _ _ _ HT _ _ E) as [?|(y & Hy & HyD & Hcy)]; [done|]. assert (y = v) as ->; [|done]. eapply used_once_op; try done. by apply args_uses. }
    pose proof (ti_ne _ _ _ _ HT _ _ Hcur) as Hne. pose proof (ti_chain _ _ _ _ HT _ _ Hcur) as Hrch. pose proof (rchain_chain _ Hrch) as Hch.
    assert (members_ok blk cur) as Hmo. { apply members_single; [|by eapply NoDup_concat_in; [apply HF|eapply elem_of_list_lookup_2]]. intros d Hd. destruct (fi_vec _ _ _ _ HF d) as (o & Hin & Eo & _); [apply in_concat_lookup; eauto|]. rewrite concat_single in Hin. eauto. }
    assert (fusible blk c cur = true) as Hf. { destruct cur as [|front tl]; [done|]. by apply (fusible_tree front tl c v). }
    split. { unfold greedy. cbn [obind fst snd]. rewrite Hcur. cbn [default]. unfold id. by rewrite Hlm, Hf. }
    split.
    - intros i p. destruct (decide (i = ix)) as [->|Hi]; [rewrite list_lookup_insert by (by eapply lookup_lt_Some); intros [= <-]; by destruct cur|]. rewrite list_lookup_insert_ne by done. apply HT.
    - intros i p. destruct (decide (i = ix)) as [->|Hi]; [|rewrite list_lookup_insert_ne by done; apply HT]. rewrite list_lookup_insert by (by eapply lookup_lt_Some). intros [= <-]. by apply (chain_snoc cur c v).
    - intros d i. rewrite lookup_map_cons. case_decide as E; [intros _; left; subst; apply elem_of_app; right; by left|]. intros H. destruct (ti_map _ _ _ _ HT _ _ H) as [?|?]; [left; apply elem_of_app; by left|by right].
    - intros y d Hy HyD Hd. destruct (ti_fused _ _ _ _ HT y d Hy HyD Hd) as (i & p & Hi & H1 & H2). destruct (lookup_mono ps ix cur [c] i p d Hcur Hi H2) as (p' & Hp' & Hsub). exists i, p'. eauto.
  Qed.
  Lemma fold_greedy_tree D0 D v ix : v ∈ ops -> o_id v ∉ D -> (forall c, c ∈ uses v -> c ∉ D0) -> forall cs pre m ps, NoDup (pre ++ cs) -> (forall c, c ∈ cs -> c ∈ cands blk v) ->
    finv blk D0 m ps -> tinv D pre m ps -> (exists p, ps !! ix = Some p /\ o_id v ∈ p /\ forall c, c ∈ pre -> c ∈ p) ->
    exists m' ps', foldl (greedy blk ix) (Ok (m, ps)) cs = Ok (m', ps') /\ finv blk D0 m' ps' /\ tinv D (pre ++ cs) m' ps' /\ exists p, ps' !! ix = Some p /\ o_id v ∈ p /\ forall c, c ∈ pre ++ cs -> c ∈ p.
  Proof.
    intros Hv HvD HD0. induction cs as [|c cs IH]; intros pre m ps Hnd Hcs HF HT (p & Hp & Hvp & Hpp). { exists m, ps. rewrite app_nil_r. cbn. eauto 10. }
    cbn [foldl]. assert (c ∈ cands blk v) as Hc by (apply Hcs; by left). assert (c ∉ pre) as Hcp. { intros H. apply NoDup_app in Hnd as (_ & Hd & _). apply (Hd c H). by left. }
    destruct (greedy_tree D0 D pre m ps ix p c v) as [E HT']; try done. rewrite E. destruct (in_cands _ _ _ Hc) as (Hca & oc & Hoc & Eoc & Evc & _).
    destruct (greedy_inv blk D0 m ps ix c _ HF (ex_intro _ p Hp) (ex_intro _ oc (conj Hoc (conj Eoc Evc))) (HD0 c (args_uses _ _ Hca)) E) as [HF' _]. cbn [fst snd] in HF'.
    destruct (IH (pre ++ [c]) ((c, ix) :: m) (<[ix := p ++ [c]]> ps)) as (m' & ps' & G1 & G2 & G3 & G4); try done.
    - by rewrite <- app_assoc.
    - intros d Hd. apply Hcs. by right.
    - exists (p ++ [c]). split; [apply list_lookup_insert; by eapply lookup_lt_Some|]. split; [apply elem_of_app; by left|]. intros d [Hd|Hd]%elem_of_app; apply elem_of_app; [left; by apply Hpp|by right].
    - exists m', ps'. rewrite <- !app_assoc in *. eauto.
  Qed.
  Lemma cands_nodup v : v ∈ ops -> NoDup (cands blk v).
  Proof.
    intros Hv. pose proof (used_once_in ops v Hu Hv) as H. unfold uses in H. rewrite filter_app in H. apply NoDup_app in H as (H & _ & _). eapply sublist_NoDup; [|exact H]. clear H. unfold cands. generalize (o_rows v). generalize (o_args v). induction l as [|a l IH]; intros [|b r]; cbn [zip zip_with mbind list_bind]; try done.
    - apply sublist_nil_l.
    - rewrite filter_cons. cbn [fst snd]. destruct (op_of blk a) as [d|] eqn:E.
      + apply op_of_inv in E as [Hd E]. rewrite concat_single in Hd. rewrite decide_True by (rewrite <- E; by apply elem_names). destruct (_ && _); cbn; constructor; apply IH.
      + cbn. case_decide; [constructor|]; apply IH.
  Qed.
  Lemma collect_tree D m ps v : finv blk D m ps -> tinv D [] m ps -> v ∈ ops -> o_vec v = true -> o_id v ∉ D -> (forall c, c ∈ uses v -> c ∉ o_id v :: D) ->
    exists m' ps', collect blk (Ok (m, ps)) v = Ok (m', ps') /\ tinv (o_id v :: D) [] m' ps'.
  Proof.
    intros HF HT Hv Hvv HvD Hused. unfold collect. cbn [obind fst snd].
    assert (forall m1 ps1 ix, finv blk (o_id v :: D) m1 ps1 -> tinv D [] m1 ps1 -> (exists p, ps1 !! ix = Some p /\ o_id v ∈ p) -> exists m' ps', foldl (greedy blk ix) (Ok (m1, ps1)) (cands blk v) = Ok (m', ps') /\ tinv (o_id v :: D) [] m' ps') as Hgo.
    { intros m1 ps1 ix HF1 HT1 (p & Hp & Hvp). destruct (fold_greedy_tree (o_id v :: D) D v ix Hv HvD Hused (cands blk v) [] m1 ps1) as (m' & ps' & G1 & G2 & G3 & (p' & P1 & P2 & P3)); try done.
      - by apply cands_nodup.
      - exists p. repeat split; try done. by intros c ?%elem_of_nil.
      - exists m', ps'. split; [done|]. destruct G3 as [T1 T2 T3 T4]. split; [done|done| |].
        + intros c i Hi. right. destruct (T3 _ _ Hi) as [Hc|(y & Hy & HyD & Hcy)]; [|exists y; repeat split; try done; by right]. exists v. split; [done|]. split; [by left|]. cbn in Hc. apply in_cands in Hc as [Hc _]. by apply args_uses.
        + intros y c Hy [E|HyD]%elem_of_cons Hc; [|by apply T4]. assert (y = v) as -> by (by apply op_eq'). exists ix, p'. repeat split; try done. by apply P3. }
    assert (finv blk (o_id v :: D) m ps) as HF2. { destruct HF as [I1 I2 I3 I4]. split; [done..|]. intros c Hcc. destruct (I4 c Hcc); [by left|right; by right]. }
    destruct (lookup_map m (o_id v)) as [ix|] eqn:El.
    - apply Hgo; [done|done|]. by apply (fi_map _ _ _ _ HF).
    - apply Hgo.
      + destruct HF2 as [I1 I2 I3 I4]. assert (concat (ps ++ [[o_id v]]) = concat ps ++ [o_id v]) as E by (by rewrite concat_app; cbn [concat]; rewrite app_nil_r). split; try rewrite E.
        * apply NoDup_app. split; [done|split; [|apply NoDup_singleton]]. intros x Hx ->%elem_of_list_singleton. destruct (fi_in _ _ _ _ HF _ Hx); done.
        * intros c [Hcc | ->%elem_of_list_singleton]%elem_of_app; [by apply I2|]. exists v. by rewrite concat_single.
        * intros c i Hi. destruct (I3 _ _ Hi) as (p & Hp & Hcp). exists p. split; [|done]. by apply lookup_app_l_Some.
        * intros c [Hcc | ->%elem_of_list_singleton]%elem_of_app; [by apply I4|right; by left].
      + destruct HT as [T1 T2 T3 T4]. split.
        * intros i p [Hi|[_ Hi]]%lookup_app_Some; [by eapply T1|]. apply list_lookup_singleton_Some in Hi as [_ <-]. done.
        * intros i p [Hi|[_ Hi]]%lookup_app_Some; [by eapply T2|]. apply list_lookup_singleton_Some in Hi as [_ <-]. intros [|x [|? ?]] c l2 E Hl; done.
        * done.
        * intros y c Hy HyD Hc. destruct (T4 y c Hy HyD Hc) as (i & p & Hi & ?). exists i, p. split; [by apply lookup_app_l_Some|done].
      + exists [o_id v]. split; [by apply list_lookup_middle|by left].
  Qed.
  Lemma fold_collect_tree : forall vs D m ps, finv blk D m ps -> tinv D [] m ps -> (forall v, v ∈ vs -> (v ∈ ops /\ o_vec v = true) /\ o_id v ∉ D /\ o_id v ∉ uses v /\ forall c, c ∈ uses v -> c ∉ D) -> NoDup (names vs) ->
    StronglySorted (fun x y => o_id x ∉ uses y) vs -> exists m' ps', foldl (collect blk) (Ok (m, ps)) vs = Ok (m', ps') /\ tinv (reverse (names vs) ++ D) [] m' ps'.
  Proof.
    induction vs as [|v vs IH]; intros D m ps HF HT Hvs Hnd Hs; cbn [foldl]. { exists m, ps. done. }
    change (names (v :: vs)) with (o_id v :: names vs) in *. apply NoDup_cons in Hnd as [Hn Hnd]. apply StronglySorted_inv in Hs as [Hs Hx]. rewrite Forall_forall in Hx. destruct (Hvs v) as ([H1 H1v] & H2 & H3 & H4); [by left|].
    assert (forall c, c ∈ uses v -> c ∉ o_id v :: D) as Hc by (intros c Hc [-> | Hd]%elem_of_cons; [done|by apply (H4 c)]).
    destruct (collect_tree D m ps v HF HT H1 H1v H2 Hc) as (m1 & ps1 & E & HT1). rewrite E.
    assert (finv blk (o_id v :: D) m1 ps1) as HF1. { apply (collect_inv blk D m ps v (m1, ps1)); try done; [by rewrite concat_single|]. intros Hin. destruct (fi_in _ _ _ _ HF _ Hin); done. }
    rewrite reverse_cons, <- app_assoc. apply (IH (o_id v :: D) m1 ps1); try done. intros w Hw. destruct (Hvs w) as (W1 & W2 & W3 & W4); [by right|]. split; [done|]. split; [|split; [done|]].
    - intros [Ew|?]%elem_of_cons; [|done]. apply Hn. rewrite <- Ew. by apply elem_of_list_fmap_1.
    - intros c Hcw [-> | Hd]%elem_of_cons; [by apply (Hx w)|by apply (W4 c)].
  Qed.
  Lemma pipelines_tree : exists m ps, pipelines blk = Ok (m, ps) /\ tinv (names (filter (fun o => o_vec o = true) ops)) [] m ps.
  Proof.
    destruct (vec_order ops Ho) as (V1 & V2 & V3 & V4). unfold pipelines. rewrite concat_single.
    destruct (fold_collect_tree (reverse (filter (fun o => o_vec o = true) ops)) [] [] []) as (m & ps & E & HT); try done.
    - split; cbn; [constructor| |done|]; by intros c ?%elem_of_nil.
    - split; try done. by intros y c _ ?%elem_of_nil.
    - intros v Hv. split; [by apply V3 in Hv|]. split; [by apply not_elem_of_nil|]. split; [by apply V4|]. intros c _. apply not_elem_of_nil.
    - exists m, ps. split; [done|]. rewrite app_nil_r in HT. unfold names in HT. by rewrite <- fmap_reverse, reverse_involutive in HT.
  Qed.
End form.

Lemma chain_perm l k p : l ≡ₚ k -> chain l p -> chain k p.
Proof. intros H Hc l1 c l2 E Hl. destruct (Hc l1 c l2 E Hl) as (y & Hy & ?). exists y. by rewrite <- H. Qed.
Lemma create_all_tree ops ps : forall blk, used_once ops -> ordered (concat blk) -> concat blk ≡ₚ ops -> NoDup (concat ps) ->
  (forall p, p ∈ ps -> p <> [] /\ members_ok blk p /\ chain ops p /\ forall o, o ∈ ops -> o_id o ∈ p -> o_eff o = false) ->
  exists blk', create_all (Ok blk) ps = Ok blk' /\ ordered (concat blk') /\ concat blk' ≡ₚ ops /\ effects (concat blk') = effects (concat blk) /\
    (forall it, it ∈ blk' <-> (it ∈ blk /\ forall v, v ∈ names it -> v ∉ concat ps) \/ (exists p, p ∈ ps /\ names it = reverse p /\ forall o, o ∈ it -> o ∈ ops)).
Proof.
  induction ps as [|p ps IH]; intros blk Hu Ho HP Hnd Hps.
  { exists blk. split; [done|]. split; [done|]. split; [done|]. split; [done|]. intros it. split.
    - intros H. left. split; [done|]. intros v _. apply not_elem_of_nil.
    - intros [[? _]|(p & Hp & _)]; [done|]. by apply elem_of_nil in Hp. }
  cbn [concat] in Hnd. apply NoDup_app in Hnd as (Hnp & Hd & Hnd). destruct (Hps p) as (Hne & Hm & Hch & Hpure); [by left|]. destruct p as [|front tl]; [done|].
  assert (used_once (concat blk)) as Hub by (by eapply used_once_perm; [symmetry|]). assert (chain (concat blk) (front :: tl)) as Hchb by (by eapply chain_perm; [symmetry|]).
  destruct (pos_is_Some blk front) as (e & He). { apply Ho. } { destruct Hm as [_ Hm]. destruct (Hm front) as (of & Hof & <-); [by left|]. apply elem_of_list_fmap_1. apply elem_concat. exists [of]. split; [done|by left]. }
  pose proof (create_tree blk Ho Hub front tl e Hm Hchb He) as Ec. pose proof (result_ordered blk Ho Hub front tl e Hm Hchb He) as Ro. pose proof (result_perm blk Ho Hub front tl e Hm Hchb He) as Rp. pose proof (result_effects blk Ho front tl e Hm He ltac:(intros o Hin; apply Hpure; by rewrite <- HP)) as Re.
  destruct (create_perm _ _ _ (proj1 Ho) Hm Ec) as [_ Hperm]. specialize (Hperm ltac:(done)). set (b1 := keep _ _ ++ _) in *. clearbody b1.
  destruct (IH b1) as (blk' & I1 & I2 & I3 & I4 & I5); try done.
  - by rewrite Rp.
  - intros q Hq. destruct (Hps q) as (Q1 & Q2 & Q3); [by right|]. split; [done|]. split; [|done]. eapply (members_other blk (front :: tl)); try done; [apply Ho|]. intros v Hv Hvq. apply (Hd v Hv). apply elem_concat. eauto.
  - exists blk'. unfold create_all in *. cbn [foldl obind]. rewrite Ec. split; [done|]. split; [done|]. split; [done|]. split; [by rewrite I4|].
    assert (members_ok blk (reverse (front :: tl))) as Hr. { destruct Hm as [H1 H2]. split; [by apply NoDup_reverse|]. intros v Hv. apply H2. by rewrite elem_of_reverse in Hv. }
    destruct (members_ops _ _ (proj1 Ho) Hr) as [E1 E2].
    intros it. rewrite I5. rewrite Hperm. rewrite elem_of_app, elem_keep, elem_of_list_singleton. split.
    + intros [[[[Hin Hk]|Eit] Hno]|(q & Hq & Eq & Hqo)].
      * left. split; [done|]. intros v Hv. cbn [concat]. rewrite elem_of_app. intros [?|?]; [by apply (Hk v)|by apply (Hno v)].
      * right. exists (front :: tl). split; [by left|]. rewrite Eit. split; [done|]. intros o (Hin & _)%E2. by rewrite <- HP.
      * right. exists q. split; [by right|done].
    + intros [[Hin Hno]|(q & Hq & Eq & Hqo)].
      * left. cbn [concat] in Hno. setoid_rewrite elem_of_app in Hno. split; [left; split; [done|]|]; intros v Hv H; apply (Hno v Hv); tauto.
      * apply elem_of_cons in Hq as [->|Hq]; [|right; eauto]. left. assert (it = omap (op_of blk) (reverse (front :: tl))) as ->.
        { rewrite <- E1 in Eq. assert (forall a b, (forall o, o ∈ a -> o ∈ concat blk) -> (forall o, o ∈ b -> o ∈ concat blk) -> names a = names b -> a = b) as Hinj.
          { induction a as [|x a IHa]; intros [|y b] Ha Hb E; try done. injection E as Ex Ea. f_equal; [|apply IHa; try done; intros o Ho'; [apply Ha|apply Hb]; by right]. apply (op_eq blk Ho); [apply Ha; by left|apply Hb; by left|done]. }
          apply Hinj; [|by intros o (? & _)%E2|done]. intros o Hin. rewrite HP. by apply Hqo. }
        split; [by right|]. rewrite E1. intros v Hv. rewrite elem_of_reverse in Hv. by apply Hd.
Qed.
Lemma vectorize_tree ops : ordered ops -> used_once ops -> (forall o, o ∈ ops -> o_vec o = true -> o_eff o = false) ->
  exists blk, vectorize ops = Ok blk /\ concat blk ≡ₚ ops /\ ordered (concat blk) /\ effects (concat blk) = effects ops /\
    (forall v c, v ∈ ops -> c ∈ ops -> o_vec v = true -> o_vec c = true -> o_comb c = true -> (o_id c, true) ∈ zip (o_args v) (o_rows v) -> exists it, it ∈ blk /\ v ∈ it /\ c ∈ it) /\
    (forall it, it ∈ blk -> (exists o, it = [o]) \/ forall o, o ∈ it -> o_vec o = true) /\
    (forall it v c, it ∈ blk -> v ∈ it -> c ∈ it -> o_id c ∈ uses v -> (o_id c, true) ∈ zip (o_args v) (o_rows v) /\ o_comb c = true).
Proof.
  intros Ho Hu Hpure. destruct (pipelines_tree ops Ho Hu) as (m & ps & E & HT). destruct (pipelines_inv ops _ Ho E) as [P1 P2]. cbn [snd] in P1, P2.
  destruct (create_all_tree ops ps ((fun o => [o]) <$> ops) Hu) as (blk & B1 & B2 & B3 & B4 & B5).
  - by rewrite concat_single.
  - by rewrite concat_single.
  - done.
  - intros p Hp. assert (exists i, ps !! i = Some p) as (i & Hi) by (by apply elem_of_list_lookup). split; [by eapply HT|]. split; [|split; [by eapply rchain_chain, HT|]].
    + apply members_single; [|by eapply NoDup_concat_in]. intros c Hc. destruct (P2 c) as (o & ? & ? & _); [apply elem_concat; eauto|eauto].
    + intros o Hin Hop. destruct (P2 (o_id o)) as (o' & H1 & H2 & H3); [apply elem_concat; eauto|]. assert (o' = o) as -> by (by apply (op_eq' ops Ho)). by apply Hpure.
  - exists blk. unfold vectorize. rewrite E. cbn [obind snd]. split; [exact B1|]. split; [done|]. split; [done|]. split; [by rewrite B4, concat_single|]. split.
    + intros v c Hv Hc Vv Vc Cc Hz. assert (o_id c ∈ o_args v) as Hca by (exact (elem_of_zip_l _ _ _ _ Hz)). destruct (ti_fused _ _ _ _ _ HT v (o_id c) Hv) as (i & p & Hi & Hvp & Hcp).
      { unfold names. apply elem_of_list_fmap. exists v. split; [done|]. by apply elem_of_list_filter. }
      { unfold cands. apply elem_of_list_bind. exists (o_id c, true). split; [|done]. cbn [fst snd]. rewrite op_of_in by (rewrite ?concat_single; try apply Ho; done). rewrite Vc, Cc. assert (qualified ((fun o => [o]) <$> ops) (o_id c) (o_id v) = true) as ->; [|by left].
        unfold qualified. apply forallb_forall. intros it Hit%elem_of_list_In. apply negb_true_iff, not_true_is_false. intros (o & Ho1%elem_of_list_In & Hn)%existsb_exists. apply bool_decide_eq_true in Hn.
        assert (it ∈ (fun o => [o]) <$> ops) as Hit2. { destruct (pos _ _); [|done]. apply elem_of_take in Hit as (k & Hk & _). by eapply elem_of_list_lookup_2. }
        apply elem_of_list_fmap in Hit2 as (o' & -> & Ho'). apply elem_of_list_singleton in Ho1. subst o'. assert (o = v) as ->. { apply (used_once_op ops o v (o_id c)); try done; [by apply elem_of_list_fmap_1| |by apply args_uses]. unfold uses. apply elem_of_app. by right. }
        pose proof (used_once_in ops v Hu Hv) as Hn2. unfold uses in Hn2. rewrite filter_app in Hn2. apply NoDup_app in Hn2 as (_ & Hn2 & _). apply (Hn2 (o_id c)); apply elem_of_list_filter; split; try done; by apply elem_of_list_fmap_1. }
      assert (p ∈ ps) as Hp by (by eapply elem_of_list_lookup_2).
      set (it := omap (op_of ((fun o => [o]) <$> ops)) (reverse p)). assert (members_ok ((fun o => [o]) <$> ops) (reverse p)) as Hr.
      { apply members_single; [|apply NoDup_reverse; by eapply NoDup_concat_in]. intros d Hd. rewrite elem_of_reverse in Hd. destruct (P2 d) as (o & ? & ? & _); [apply elem_concat; eauto|eauto]. }
      destruct (members_ops _ _ ltac:(rewrite concat_single; apply Ho) Hr) as [E1 E2]. exists it. split; [|split; apply E2; rewrite concat_single, elem_of_reverse; done]. apply B5. right. exists p. split; [done|]. split; [exact E1|]. intros o (Hin & _)%E2. by rewrite concat_single in Hin.
    + split. { intros it Hit. apply B5 in Hit as [[Hit _]|(p & Hp & Ep & Hpo)]; [left; apply elem_of_list_fmap in Hit as (o & -> & _); eauto|]. right. intros o Hin. assert (o_id o ∈ p) as Hop. { rewrite <- elem_of_reverse, <- Ep. by apply elem_of_list_fmap_1. }
      destruct (P2 (o_id o)) as (o' & H1 & H2 & H3); [apply elem_concat; eauto|]. assert (o' = o) as -> by (apply (op_eq' ops Ho); try done; by apply Hpo). done. }
      intros it v c Hit Hv Hc Huse. assert (StronglySorted (fun y z => o_id z ∉ uses y) it /\ Forall (fun y => o_id y ∉ uses y) it) as [Hss Hself].
      { destruct B2 as (_ & S1 & S2). apply elem_of_list_split in Hit as (k1 & k2 & ->). rewrite concat_app in S1, S2. cbn [concat] in S1, S2. apply ss_app_iff in S1 as (_ & S1 & _). apply ss_app_iff in S1 as (S1 & _ & _). apply Forall_app in S2 as [_ S2]. by apply Forall_app in S2 as [S2 _]. }
      rewrite Forall_forall in Hself. apply B5 in Hit as [[Hit _]|(p & Hp & Ep & Hpo)].
      { apply elem_of_list_fmap in Hit as (o & -> & _). apply elem_of_list_singleton in Hv, Hc. subst v c. exfalso. apply (Hself o); [by left|done]. }
      assert (exists i, ps !! i = Some p) as (i & Hi) by (by apply elem_of_list_lookup). assert (o_id c ∈ p) as Hcp. { rewrite <- elem_of_reverse, <- Ep. by apply elem_of_list_fmap_1. }
      apply elem_of_list_split in Hcp as (l1 & l2 & El). destruct (decide (l1 = [])) as [->|Hl].
      * exfalso. cbn in El. rewrite El, reverse_cons in Ep. apply fmap_app_inv in Ep as (a & b & Ea & Eb & Eit). destruct b as [|c' [|? ?]]; [done| |done]. injection Eb as Eb. assert (c' = c) as ->. { apply (op_eq' ops Ho); [apply Hpo; rewrite Eit; apply elem_of_app; right; by left|by apply Hpo|done]. }
        rewrite Eit in Hv, Hss. apply elem_of_app in Hv as [Hv|Hv%elem_of_list_singleton]; [|subst v; by apply (Hself c)]. apply ss_app_iff in Hss as (_ & _ & Hss). apply (Hss v c Hv); [by left|done].
      * destruct (ti_chain _ _ _ _ _ HT _ _ Hi l1 (o_id c) l2 El Hl) as (y & Hy & _ & Hcy). destruct (in_cands _ _ _ Hcy) as (Hca & d & Hd & Ed & _ & Hcomb & Hz). rewrite concat_single in Hd.
        assert (y = v) as ->. { apply (used_once_op ops y v (o_id c)); try done; [by apply Hpo|apply elem_of_list_fmap_1; by apply Hpo|by apply args_uses]. }
        split; [done|]. assert (d = c) as -> by (apply (op_eq' ops Ho); [done|by apply Hpo|done]). done.
Qed.

(** * One pipeline, also when values are used more than once *)
Lemma value_dep_sound blk t : NoDup (names (concat blk)) -> forall fuel a i, pos blk a = Some i -> value_dep fuel blk a t = true -> i = t \/ needs blk i t.
Proof.
  intros Hnd. induction fuel as [|fuel IH]; intros a i Ha; cbn [value_dep]; [done|]. rewrite Ha. case_decide; [by left|]. case_decide; [done|]. destruct (pos_inv _ _ _ Ha) as (it & Hi & Hv). rewrite Hi. intros (b & Hb%elem_of_list_In & Hd)%existsb_exists. right.
  assert (exists j, pos blk b = Some j) as (j & Hj). { destruct fuel; [done|]. cbn in Hd. destruct (pos blk b); [eauto|done]. }
  destruct (pos_inv _ _ _ Hj) as (itj & Hitj & (z & -> & Hz)%elem_of_list_fmap). apply in_operands in Hb as (_ & y & Hy & Hyz). assert (needs blk i j) as Hij by (eapply needs_use; try done; by apply args_uses).
  destruct (IH _ _ Hj Hd) as [->|Hjt]; [done|by eapply needs_trans].
Qed.
Lemma value_dep_fuel blk t : ordered (concat blk) -> forall n n' a i, pos blk a = Some i -> i < n -> i < n' -> value_dep n blk a t = value_dep n' blk a t.
Proof.
  intros Ho. induction n as [|n IH]; intros n' a i Ha H1 H2; [lia|]. destruct n' as [|n']; [lia|]. cbn [value_dep]. rewrite Ha. case_decide; [done|]. case_decide; [done|]. destruct (pos_inv _ _ _ Ha) as (it & Hi & Hv). rewrite Hi.
  assert (forall l, (forall b, b ∈ l -> b ∈ operands it) -> existsb (fun b => value_dep n blk b t) l = existsb (fun b => value_dep n' blk b t) l) as Hl.
  { induction l as [|b l IHl]; intros Hb; [done|]. cbn. rewrite IHl by (intros b1 Hb1; apply Hb; by right). f_equal. destruct (pos blk b) as [j|] eqn:Ej.
    - pose proof (operand_before _ _ _ _ _ Ho Hi (Hb b ltac:(by left)) Ej). apply (IH n' b j Ej); lia.
    - destruct n; [lia|]. destruct n'; [lia|]. cbn. by rewrite Ej. }
  by apply Hl.
Qed.
Lemma op_dep_direct blk i it p : ordered (concat blk) -> blk !! i = Some it -> p ∈ operands it -> (exists t, pos blk p = Some t) -> op_dep blk it p = true.
Proof. intros Ho Hi Hp (t & Ht). unfold op_dep. rewrite Ht. apply existsb_exists. exists p. split; [by apply elem_of_list_In|]. cbn. rewrite Ht. by rewrite decide_True. Qed.
Lemma op_dep_step blk i it j itj b p : ordered (concat blk) -> blk !! i = Some it -> b ∈ operands it -> pos blk b = Some j -> blk !! j = Some itj -> op_dep blk itj p = true -> op_dep blk it p = true.
Proof.
  intros Ho Hi Hb Hj Hitj. unfold op_dep. destruct (pos blk p) as [t|] eqn:Et; [|done]. intros (a & Ha%elem_of_list_In & Hd)%existsb_exists. apply existsb_exists. exists b. split; [by apply elem_of_list_In|].
  assert (j < length blk) as Hjl by (by eapply lookup_lt_Some). assert (exists k, pos blk a = Some k) as (k & Hk). { cbn in Hd. destruct (pos blk a); [eauto|done]. } pose proof (operand_before _ _ _ _ _ Ho Hitj Ha Hk) as Hkj.
  assert (t <= k) as Htk. { cbn in Hd. rewrite Hk in Hd. case_decide; [lia|]. case_decide; [done|lia]. }
  cbn [value_dep]. rewrite Hj. rewrite decide_False by lia. rewrite decide_False by lia. rewrite Hitj. apply existsb_exists. exists a. split; [by apply elem_of_list_In|]. rewrite <- Hd. apply (value_dep_fuel blk t Ho _ _ a k Hk); lia.
Qed.
Lemma op_dep_needs blk i it p t : ordered (concat blk) -> blk !! i = Some it -> pos blk p = Some t -> op_dep blk it p = true -> needs blk i t.
Proof.
  intros Ho Hi Ht. unfold op_dep. rewrite Ht. intros (a & Ha%elem_of_list_In & Hd)%existsb_exists. assert (exists k, pos blk a = Some k) as (k & Hk). { cbn in Hd. destruct (pos blk a); [eauto|done]. }
  destruct (pos_inv _ _ _ Hk) as (itk & Hitk & (z & -> & Hz)%elem_of_list_fmap). apply in_operands in Ha as (_ & y & Hy & Hyz). assert (needs blk i k) by (eapply needs_use; try done; by apply args_uses).
  apply (value_dep_sound blk t (proj1 Ho) _ _ k Hk) in Hd as [->|?]; [done|by eapply needs_trans].
Qed.

Section shared.
  Context (blk : list (list vop)) (Ho : ordered (concat blk)) (front : nat) (tl : list nat) (s e : nat).
  Notation pipe := (front :: tl).
  Let Hnd : NoDup (names (concat blk)) := proj1 Ho.
  Context (Hm : members_ok blk pipe) (Hs : pos blk (default 0 (last pipe)) = Some s) (He : pos blk front = Some e).
  (** the members are in the reverse order of the block *)
  Context (Hrev : StronglySorted (fun a b => forall i j, pos blk a = Some i -> pos blk b = Some j -> j < i) pipe).
  Definition member i := exists it v, blk !! i = Some it /\ v ∈ names it /\ v ∈ pipe.
  Context (Hconv : forall i p q, ~ member i -> member p -> member q -> needs blk i p -> needs blk q i -> False).
  (** control structures between the operations use no value defined between them *)
  Context (Hnest : forall i it y a j, s < i < e -> ~ member i -> blk !! i = Some it -> y ∈ it -> a ∈ o_nested y -> pos blk a = Some j -> j < s).

  Definition depends (it : list vop) : bool := existsb (op_dep blk it) pipe.
  Lemma dep_take i it k : blk !! i = Some it -> (forall p, p ∈ pipe -> p ∉ take k (reverse pipe) -> exists j, pos blk p = Some j /\ i <= j) -> existsb (op_dep blk it) (take k (reverse pipe)) = depends it.
  Proof.
    intros Hi Hk. unfold depends. apply eq_true_iff_eq. rewrite !existsb_exists. split.
    - intros (p & Hp%elem_of_list_In & Hd). exists p. split; [|done]. apply elem_of_list_In. apply elem_of_take in Hp as (x & Hp & _). apply elem_of_list_lookup_2 in Hp. by rewrite elem_of_reverse in Hp.
    - intros (p & Hp%elem_of_list_In & Hd). exists p. split; [|done]. apply elem_of_list_In. destruct (decide (p ∈ take k (reverse pipe))) as [|Hn]; [done|]. exfalso. destruct (Hk p Hp Hn) as (j & Hj & Hij).
      unfold op_dep in Hd. rewrite Hj in Hd. apply existsb_exists in Hd as (a & Ha%elem_of_list_In & Hd). cbn in Hd. destruct (pos blk a) as [m|] eqn:Em; [|done]. pose proof (operand_before _ _ _ _ _ Ho Hi Ha Em). rewrite decide_False in Hd by lia. by rewrite decide_True in Hd by lia.
  Qed.
  Lemma mem_pos p : p ∈ pipe -> exists j o, pos blk p = Some j /\ blk !! j = Some [o] /\ o_id o = p.
  Proof. intros Hp. destruct Hm as [_ Hmm]. destruct (Hmm p Hp) as (o & Hin & <-). apply elem_of_list_lookup in Hin as (i & Hi). exists i, o. split; [|done]. eapply pos_lookup; try done. by left. Qed.
  Lemma asc : StronglySorted (fun a b => forall i j, pos blk a = Some i -> pos blk b = Some j -> i < j) (reverse pipe).
  Proof. apply ss_reverse in Hrev. clear - Hrev. induction Hrev as [|x l H1 IH H2]; constructor; [by apply IH|]. rewrite Forall_forall in H2 |- *. intros y Hy i j Hi Hj. by eapply (H2 y Hy). Qed.
  Lemma ss_lookup {A} (R : A -> A -> Prop) l i j x y : StronglySorted R l -> l !! i = Some x -> l !! j = Some y -> i < j -> R x y.
  Proof.
    intros H. revert i j. induction H as [|z l Hl IH Hz]; intros i j Hi Hj Hij; [done|]. destruct j as [|j]; [lia|]. destruct i as [|i]; cbn in Hi, Hj.
    - injection Hi as ->. rewrite Forall_forall in Hz. apply Hz. by eapply elem_of_list_lookup_2.
    - eapply IH; try done. lia.
  Qed.
  (** [k] is the number of members before position [i] *)
  Definition counted (k i : nat) : Prop := forall x p j, reverse pipe !! x = Some p -> pos blk p = Some j -> (j < i <-> x < k).
  Lemma classify_split : forall rg i k, (forall x it, rg !! x = Some it -> blk !! (i + x) = Some it) -> counted k i ->
    let r := classify blk (reverse pipe) k rg in keep pipe (fst r) = filter (fun it => depends it = false) (keep pipe rg) /\ keep pipe (snd r) = filter (fun it => depends it = true) (keep pipe rg).
  Proof.
    induction rg as [|it rg IH]; intros i k Hrg Hk; [done|]. cbn [classify]. pose proof (Hrg 0 it eq_refl) as Hit. rewrite Nat.add_0_r in Hit. assert (forall x it, rg !! x = Some it -> blk !! (S i + x) = Some it) as Hrg'. { intros x it' Hx. specialize (Hrg (S x) it' Hx). by rewrite Nat.add_succ_r in Hrg. }
    destruct (match reverse pipe !! k with Some p => bool_decide (p ∈ names it) | None => false end) eqn:E.
    - destruct (reverse pipe !! k) as [p|] eqn:Ep; [|done]. apply bool_decide_eq_true in E. assert (p ∈ pipe) as Hp by (apply elem_of_list_lookup_2 in Ep; by rewrite elem_of_reverse in Ep). rewrite (keep_drop pipe it rg p) by done. apply (IH (S i)); [done|].
      pose proof (pos_lookup _ _ _ _ Hnd Hit E) as Hpi. intros x q j Hx Hj. destruct (Nat.lt_trichotomy x k) as [Hlt|[->|Hgt]].
      + pose proof (ss_lookup _ _ x k q p asc Hx Ep Hlt j i Hj Hpi). lia.
      + assert (q = p) as -> by congruence. assert (j = i) as -> by congruence. lia.
      + pose proof (ss_lookup _ _ k x p q asc Ep Hx Hgt i j Hpi Hj). lia.
    - assert (forall v, v ∈ names it -> v ∈ pipe -> False) as Hnm.
      { intros v Hv Hvp. assert (v ∈ reverse pipe) as Hr by (by rewrite elem_of_reverse). apply elem_of_list_lookup in Hr as (x & Hx). pose proof (pos_lookup _ _ _ _ Hnd Hit Hv) as Hpv. assert (~ x < k) as Hxk by (rewrite <- (Hk x v i Hx Hpv); lia).
        destruct (decide (x = k)) as [->|Hne]; [rewrite Hx in E; by apply bool_decide_eq_false in E|]. assert (exists q, reverse pipe !! k = Some q) as (q & Hq). { apply lookup_lt_is_Some_2. apply lookup_lt_Some in Hx. lia. }
        assert (q ∈ pipe) as Hqp by (apply elem_of_list_lookup_2 in Hq; by rewrite elem_of_reverse in Hq). destruct (mem_pos q Hqp) as (j & oq & Hj & _). pose proof (ss_lookup _ _ k x q v asc Hq Hx ltac:(lia) j i Hj Hpv) as Hji. apply (Hk k q j Hq Hj) in Hji. lia. }
      assert (counted k (S i)) as Hk'. { intros x q j Hx Hj. assert (j <> i). { intros ->. destruct (pos_inv _ _ _ Hj) as (it2 & Hit2 & Hq). assert (it2 = it) as -> by congruence. apply (Hnm q Hq). apply elem_of_list_lookup_2 in Hx. by rewrite elem_of_reverse in Hx. } rewrite <- (Hk x q j Hx Hj). lia. }
      destruct (IH (S i) k Hrg' Hk') as [IH1 IH2]. rewrite (dep_take i it k Hit).
      2: { intros p Hp Hn. destruct (mem_pos p Hp) as (j & op & Hj & _). exists j. split; [done|]. destruct (decide (i <= j)) as [|Hlt]; [done|]. exfalso. apply Hn. assert (p ∈ reverse pipe) as Hr by (by rewrite elem_of_reverse). apply elem_of_list_lookup in Hr as (x & Hx). apply elem_of_take. exists x. split; [done|]. apply (Hk x p j Hx Hj). lia. }
      assert (keep pipe (it :: rg) = it :: keep pipe rg) as Ek. { unfold keep. rewrite filter_cons_True; [done|]. apply Forall_forall. intros v Hv Hp. by apply (Hnm v). }
      assert (forall b, keep pipe (it :: b) = it :: keep pipe b) as Ek2. { intros b. unfold keep. rewrite filter_cons_True; [done|]. apply Forall_forall. intros v Hv Hp. by apply (Hnm v). }
      rewrite Ek. destruct (depends it) eqn:Ed; cbn [fst snd]; rewrite ?Ek2, !filter_cons, Ed; cbn; split; try done; by f_equal.
  Qed.
  Lemma s_le : s <= e.
  Proof.
    destruct (last pipe) as [x|] eqn:El; [|by apply last_None in El]. cbn in Hs. assert (x = front \/ x ∈ tl) as [->|Hx]. { apply last_Some_elem_of in El. by apply elem_of_cons in El. }
    - assert (s = e) as -> by congruence. lia.
    - apply StronglySorted_inv in Hrev as [_ H]. rewrite Forall_forall in H. specialize (H x Hx e s He Hs). lia.
  Qed.
  Lemma mem_range p j : p ∈ pipe -> pos blk p = Some j -> s <= j <= e.
  Proof.
    intros Hp Hj. split.
    - destruct (last pipe) as [x|] eqn:El; [|by apply last_None in El]. cbn in Hs. assert (reverse pipe !! 0 = Some x) as H0. { apply last_Some in El as (l' & ->). by rewrite reverse_app. }
      assert (p ∈ reverse pipe) as Hr by (by rewrite elem_of_reverse). apply elem_of_list_lookup in Hr as ([|y] & Hy); [assert (p = x) as -> by congruence; assert (s = j) as -> by congruence; lia|]. pose proof (ss_lookup _ _ 0 (S y) x p asc H0 Hy ltac:(lia) s j Hs Hj). lia.
    - apply elem_of_cons in Hp as [->|Hp]; [assert (e = j) as -> by congruence; lia|]. apply StronglySorted_inv in Hrev as [_ H]. rewrite Forall_forall in H. specialize (H p Hp e j He Hj). lia.
  Qed.
  Notation range := (keep pipe (take (e - s) (drop s blk))).
  Notation moved := (take s blk ++ filter (fun it => depends it = false) range ++ [omap (op_of blk) (reverse pipe)] ++ filter (fun it => depends it = true) range ++ drop (S e) blk).
  Lemma create_shared : create blk pipe = Ok moved.
  Proof.
    unfold create. rewrite Hs, He. rewrite decide_True by apply s_le. f_equal. destruct (classify_split (take (e - s) (drop s blk)) s 0) as [C1 C2].
    - intros x it Hx. apply lookup_take_Some in Hx as [Hx _]. by rewrite lookup_drop in Hx.
    - intros x p j Hx Hj. apply elem_of_list_lookup_2 in Hx. rewrite elem_of_reverse in Hx. pose proof (mem_range p j Hx Hj). lia.
    - rewrite C1, C2. f_equal; [|do 3 f_equal]; apply keep_id; intros it v (i & Hi)%elem_of_list_lookup Hv Hp.
      + apply lookup_take_Some in Hi as [Hi Hlt]. pose proof (mem_range v i Hp (pos_lookup _ _ _ _ Hnd Hi Hv)). lia.
      + rewrite lookup_drop in Hi. pose proof (mem_range v _ Hp (pos_lookup _ _ _ _ Hnd Hi Hv)). lia.
  Qed.
  Lemma moved_perm : concat moved ≡ₚ concat blk.
  Proof. by eapply create_perm; [| |exact create_shared]. Qed.
  Lemma in_range it : it ∈ range -> exists i, s < i < e /\ blk !! i = Some it /\ ~ member i.
  Proof.
    intros [Hit Hno]%elem_keep. apply elem_of_list_lookup in Hit as (x & Hx). apply lookup_take_Some in Hx as [Hx Hlt]. rewrite lookup_drop in Hx. exists (s + x). assert (~ member (s + x)) as Hn. { intros (it' & v & Hit' & Hv & Hp). assert (it' = it) as -> by congruence. by apply (Hno v). } split; [|done]. destruct x as [|x]; [|lia]. exfalso. apply Hn. rewrite Nat.add_0_r in *. destruct (pos_inv _ _ _ Hs) as (its & Hits & Hls). exists its, (default 0 (last pipe)). repeat split; try done.
    destruct (last pipe) as [y|] eqn:El; [|by apply last_None in El]. by apply last_Some_elem_of.
  Qed.
  (** an item between the members that uses a value defined at or after the first member uses it as an operand *)
  Lemma range_use i it y z j itj : s < i < e -> ~ member i -> blk !! i = Some it -> y ∈ it -> blk !! j = Some itj -> z ∈ itj -> o_id z ∈ uses y -> s <= j -> j <> i -> o_id z ∈ operands it /\ pos blk (o_id z) = Some j.
  Proof.
    intros Hi Hn Hit Hy Hj Hz Hu Hsj Hne. assert (pos blk (o_id z) = Some j) as Hp. { eapply pos_lookup; try done. by apply elem_of_list_fmap_1. } split; [|done]. apply in_operands. split.
    - intros H. pose proof (pos_lookup _ _ _ _ Hnd Hit H). congruence.
    - exists y. split; [done|]. unfold uses in Hu. apply elem_of_app in Hu as [?|Hu]; [done|]. pose proof (Hnest i it y (o_id z) j Hi Hn Hit Hy Hu Hp). lia.
  Qed.
  Lemma in_ops y : y ∈ omap (op_of blk) (reverse pipe) -> exists j, blk !! j = Some [y] /\ s <= j <= e /\ member j /\ o_id y ∈ pipe.
  Proof.
    intros (p & Hp & Ey)%elem_of_list_omap. rewrite elem_of_reverse in Hp. destruct (mem_pos p Hp) as (j & o & Hj & Hjo & Eo). assert (o ∈ concat blk) as Hoc by (apply elem_concat; exists [o]; split; [by eapply elem_of_list_lookup_2|by left]). rewrite <- Eo, (op_of_in _ _ Hnd Hoc) in Ey. injection Ey as <-. exists j. split; [done|]. split; [by eapply mem_range|]. split; [|by rewrite Eo]. exists [o], p. split; [done|]. split; [rewrite <- Eo; by left|done].
  Qed.
  Lemma moved_ordered : ordered (concat moved).
  Proof.
    split; [by rewrite (names_perm _ _ moved_perm)|]. split; [|rewrite Forall_forall; intros y; rewrite moved_perm; pose proof Ho as (_ & _ & Hself); rewrite Forall_forall in Hself; apply Hself].
    apply ss_concat.
    - assert (forall it, it ∈ blk -> StronglySorted (fun y z => o_id z ∉ uses y) it) as Hin.
      { intros it (l & k & E)%elem_of_list_split. pose proof Ho as (_ & Hss & _). rewrite E, concat_app in Hss. cbn [concat] in Hss. apply ss_app_iff in Hss as (_ & Hss & _). by apply ss_app_iff in Hss as (Hss & _ & _). }
      assert (forall it, it ∈ range -> it ∈ blk) as Hrg. { intros it (i & _ & Hi & _)%in_range. by eapply elem_of_list_lookup_2. }
      apply Forall_forall. intros it Hit. rewrite !elem_of_app, !elem_of_list_filter, elem_of_list_singleton in Hit. destruct Hit as [Hit|[[_ Hit]|[->|[[_ Hit]|Hit]]]].
      + apply Hin. apply elem_of_list_lookup in Hit as (x & Hx). apply lookup_take_Some in Hx as [Hx _]. by eapply elem_of_list_lookup_2.
      + by apply Hin, Hrg.
      + pose proof asc as Hasc. assert (forall q, (forall p, p ∈ q -> p ∈ pipe) -> StronglySorted (fun a b => forall i j, pos blk a = Some i -> pos blk b = Some j -> i < j) q -> StronglySorted (fun y z => o_id z ∉ uses y) (omap (op_of blk) q)) as Hq.
        { induction q as [|a q IH]; intros Hqp Hsq; [constructor|]. apply StronglySorted_inv in Hsq as [Hsq Hall]. rewrite Forall_forall in Hall. cbn. destruct (mem_pos a) as (j & o & Hj & Hjo & Eo); [apply Hqp; by left|]. assert (o ∈ concat blk) as Hoc by (apply elem_concat; exists [o]; split; [by eapply elem_of_list_lookup_2|by left]). rewrite <- Eo, (op_of_in _ _ Hnd Hoc). constructor; [apply IH; [|done]; intros p Hp; apply Hqp; by right|].
          apply Forall_forall. intros z (p & Hp & Ez)%elem_of_list_omap. destruct (mem_pos p) as (k & o2 & Hk & Hko & Eo2); [apply Hqp; by right|]. assert (o2 ∈ concat blk) as Hoc2 by (apply elem_concat; exists [o2]; split; [by eapply elem_of_list_lookup_2|by left]). rewrite <- Eo2, (op_of_in _ _ Hnd Hoc2) in Ez. injection Ez as <-. eapply (later blk j k [o] [o2]); try done; [|by left|by left]. by eapply (Hall p). }
        apply Hq; [|done]. intros p. by rewrite elem_of_reverse.
      + by apply Hin, Hrg.
      + apply Hin. apply elem_of_list_lookup in Hit as (x & Hx). rewrite lookup_drop in Hx. by eapply elem_of_list_lookup_2.
    - (* between items *)
      set (R := fun B B' : list vop => forall y z, y ∈ B -> z ∈ B' -> o_id z ∉ uses y).
      assert (StronglySorted R blk) as Hblk.
      { assert (forall q, (exists l, blk = l ++ q) -> StronglySorted R q) as Hq.
        { induction q as [|it q IH]; intros (l & E); [constructor|]. constructor; [apply IH; exists (l ++ [it]); by rewrite <- app_assoc|]. apply Forall_forall. intros it' (x & Hx)%elem_of_list_lookup y z Hy Hz. eapply (later blk (length l) (length l + S x) it it'); try done; [rewrite E; by apply list_lookup_middle|rewrite E; rewrite lookup_app_r by lia; replace (length l + S x - length l) with (S x) by lia; done|lia]. }
        apply Hq. by exists []. }
      assert (forall i j itA itB, blk !! i = Some itA -> blk !! j = Some itB -> i < j -> R itA itB) as Hlt. { intros i j itA itB Hi Hj Hij y z Hy Hz. by eapply (later blk i j). }
      assert (sublist (take (e - s) (drop s blk)) blk) as Hsub1. { rewrite <- (take_drop s blk) at 2. apply sublist_inserts_l. apply sublist_take. }
      assert (forall b, StronglySorted R (filter (fun it => depends it = b) range)) as Hfil.
      { intros b. eapply ss_sub; [|exact Hblk]. etrans; [|exact Hsub1]. unfold keep. clear. generalize (take (e - s) (drop s blk)). intros l. induction l as [|x l IH]; [done|]. rewrite filter_cons. case_decide; [rewrite filter_cons; case_decide; by constructor|by constructor]. }
      assert (forall it, it ∈ take s blk -> exists i, blk !! i = Some it /\ i < s) as Hpre. { intros it (x & Hx)%elem_of_list_lookup. apply lookup_take_Some in Hx as [Hx ?]. eauto. }
      assert (forall it, it ∈ drop (S e) blk -> exists i, blk !! i = Some it /\ e < i) as Hpost. { intros it (x & Hx)%elem_of_list_lookup. rewrite lookup_drop in Hx. exists (S e + x). split; [done|lia]. }
      pose proof s_le as Hse.
      assert (forall it, depends it = false -> it ∈ range -> forall y z, y ∈ it -> z ∈ omap (op_of blk) (reverse pipe) -> o_id z ∉ uses y) as HbefP.
      { intros it Hd (i & Hi & Hit & Hn)%in_range y z Hy (j & Hj & Hjr & Hmj & Hzp)%in_ops Hu. destruct (range_use i it y z j [z]) as [Hop Hpz]; try done; [by left|lia|intros ->; done|]. assert (depends it = true); [|congruence]. unfold depends. apply existsb_exists. exists (o_id z). split; [by apply elem_of_list_In|]. by eapply op_dep_direct; eauto. }
      assert (forall itA itB, depends itA = false -> depends itB = true -> itA ∈ range -> itB ∈ range -> R itA itB) as HbefAft.
      { intros itA itB HA HB (i & Hi & HitA & Hni)%in_range (j & Hj & HitB & Hnj)%in_range y z Hy Hz Hu. assert (i <> j) by congruence. destruct (range_use i itA y z j itB) as [Hop Hpz]; try done; [lia|]. assert (depends itA = true); [|congruence]. unfold depends in *. apply existsb_exists in HB as (p & Hp & Hd). apply existsb_exists. exists p. split; [done|]. by eapply (op_dep_step blk i itA j itB). }
      assert (forall it, depends it = true -> it ∈ range -> forall y z, y ∈ omap (op_of blk) (reverse pipe) -> z ∈ it -> o_id z ∉ uses y) as HPaft.
      { intros it Hd (i & Hi & Hit & Hn)%in_range y z (j & Hj & Hjr & Hmj & Hyp)%in_ops Hz Hu. unfold depends in Hd. apply existsb_exists in Hd as (p & Hp%elem_of_list_In & Hd). destruct (mem_pos p Hp) as (t & o & Ht & Hto & Eo). apply (Hconv i t j Hn); [|done| |].
        - exists [o], p. split; [done|]. split; [rewrite <- Eo; by left|done].
        - by eapply op_dep_needs.
        - eapply needs_use; try done. by left. }
      apply ss_app_iff. split; [|split; [apply ss_app_iff; split; [|split; [apply ss_app_iff; split; [|split; [apply ss_app_iff; split; [|split]|]]|]]|]].
      + eapply ss_sub; [|exact Hblk]. apply sublist_take.
      + apply Hfil.
      + by repeat constructor.
      + apply Hfil.
      + eapply ss_sub; [|exact Hblk]. apply sublist_drop.
      + intros itA itB [_ HA]%elem_of_list_filter HB. apply in_range in HA as (i & Hi & HitA & _). apply Hpost in HB as (j & HitB & Hj). eapply (Hlt i j); try done. lia.
      + intros itA itB ->%elem_of_list_singleton [HB|HB]%elem_of_app y z Hy Hz.
        * apply elem_of_list_filter in HB as [Hd HB]. by eapply HPaft.
        * apply in_ops in Hy as (j & Hj & Hjr & _). apply Hpost in HB as (k & HitB & Hk). eapply (later blk j k [y] itB); try done; [lia|by left].
      + intros itA itB [Hd HA]%elem_of_list_filter HB. rewrite !elem_of_app, elem_of_list_singleton, elem_of_list_filter in HB. destruct HB as [->|[[Hd2 HB]|HB]].
        * intros y z Hy Hz. by eapply HbefP.
        * by apply HbefAft.
        * apply in_range in HA as (i & Hi & HitA & _). apply Hpost in HB as (j & HitB & Hj). eapply (Hlt i j); try done. lia.
      + intros itA itB HA HB. apply Hpre in HA as (i & HitA & Hi). rewrite !elem_of_app, elem_of_list_singleton, !elem_of_list_filter in HB. destruct HB as [[_ HB]|[->|[[_ HB]|HB]]].
        * apply in_range in HB as (j & Hj & HitB & _). eapply (Hlt i j); try done. lia.
        * intros y z Hy (j & Hj & Hjr & _)%in_ops. eapply (later blk i j itA [z]); try done; [lia|by left].
        * apply in_range in HB as (j & Hj & HitB & _). eapply (Hlt i j); try done. lia.
        * apply Hpost in HB as (j & HitB & Hj). eapply (Hlt i j); try done. lia.
  Qed.
  Context (Hpure : forall o, o ∈ concat blk -> o_id o ∈ pipe -> o_eff o = false).
  Context (Heff : forall i p it y, s < i < e -> ~ member i -> member p -> blk !! i = Some it -> y ∈ it -> o_eff y = true -> ~ needs blk i p).
  Lemma moved_effects : effects (concat moved) = effects (concat blk).
  Proof.
    destruct (mem_pos front) as (e' & f & He' & Hf & Ef); [by left|]. assert (e' = e) as -> by congruence. rewrite (split3 blk s e [f] s_le Hf) at 6. rewrite !concat_app, !effects_app. f_equal. cbn [concat app]. rewrite app_nil_r.
    assert (forall it, it ∈ take (e - s) (drop s blk) -> it ∈ blk) as Hin. { intros it (x & Hx)%elem_of_list_lookup. apply lookup_take_Some in Hx as [Hx _]. rewrite lookup_drop in Hx. by eapply elem_of_list_lookup_2. }
    rewrite <- (effects_keep blk Ho front tl Hm Hpure (take (e - s) (drop s blk)) Hin). change (f :: concat (drop (S e) blk)) with ([f] ++ concat (drop (S e) blk)). rewrite effects_app. rewrite (effects_none [f]). 2: { intros o ->%elem_of_list_singleton. apply Hpure; [|rewrite Ef; by left]. apply elem_concat. exists [f]. split; [by eapply elem_of_list_lookup_2|by left]. }
    rewrite (effects_none (omap _ _)). 2: { intros o (j & Hj & _ & _ & Hp)%in_ops. apply Hpure; [|done]. apply elem_concat. exists [o]. split; [by eapply elem_of_list_lookup_2|by left]. } cbn [app].
    assert (forall q, (forall it, it ∈ q -> it ∈ range) -> effects (concat (filter (fun it => depends it = true) q)) = [] /\ effects (concat (filter (fun it => depends it = false) q)) = effects (concat q)) as Hq.
    { induction q as [|it q IH]; intros Hq; [done|]. destruct IH as [IH1 IH2]; [intros it' H; apply Hq; by right|]. rewrite !filter_cons. destruct (depends it) eqn:Ed; cbn [decide_rel]; [rewrite decide_True, decide_False by done|rewrite decide_False, decide_True by done]; cbn [concat]; rewrite ?effects_app, ?IH1, ?IH2; [|done].
      destruct (in_range it (Hq it ltac:(by left))) as (i & Hi & Hit & Hn). rewrite (effects_none it); [done|]. intros o Hoi. apply not_true_is_false. intros Hoe. unfold depends in Ed. apply existsb_exists in Ed as (p & Hp%elem_of_list_In & Hd). destruct (mem_pos p Hp) as (t & op & Ht & Hto & Eo). apply (Heff i t it o Hi Hn); try done; [|by eapply op_dep_needs]. exists [op], p. split; [done|]. split; [rewrite <- Eo; by left|done]. }
    destruct (Hq range) as [Q1 Q2]; [done|]. by rewrite Q1, Q2.
  Qed.
End shared.
