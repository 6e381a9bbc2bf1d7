(** Proofs for the random kernels. *)
From stdpp Require Import base numbers sorting list list_numbers.
From Coq Require Import Lia.
From Verif Require Import CppBase Mem CSRModel CSRSpec CSRProofs CSRView RandModel.
Local Open Scope nat_scope.

(** The selection loop: whatever the random numbers are, it selects exactly [size] positions. *)
Lemma knuth_spec {St} (P : list nat -> St -> Prop) range size rnd body (s : St) : size <= range -> P [] s ->
  (forall i sel t, i < range -> length sel < size -> StronglySorted lt sel -> Forall (fun x => x < i) sel -> P sel t -> exists t', body i (length sel) t = Ok t' /\ P (sel ++ [i]) t') ->
  exists t sel, knuth range size rnd body s = Ok (t, size) /\ length sel = size /\ StronglySorted lt sel /\ Forall (fun x => x < range) sel /\ P sel t.
Proof.
  intros Hsz H0 Hstep. unfold knuth.
  match goal with |- context [for_up 0 range ?f ?s0] =>
    destruct (for_up_inv (fun i (s : St * nat) => exists sel, snd s = length sel /\ length sel <= size /\ size - length sel <= range - i /\ StronglySorted lt sel /\ Forall (fun x => x < i) sel /\ P sel (fst s)) 0 range f s0) as ([t cnt] & E & sel & Hc & Hle & Hrem & Hs & Hf & HP) end.
  - lia.
  - exists []. cbn. split; [done|]. split; [lia|]. split; [lia|]. split; [constructor|]. split; [constructor|done].
  - intros i [t cnt] Hi (sel & Hc & Hle & Hrem & Hs & Hf & HP). cbn [fst snd] in *. subst cnt.
    assert (Hf1 : Forall (fun x => x < 1 + i) sel) by (eapply Forall_impl; [exact Hf|]; intros x Hx; cbn in *; lia).
    destruct (decide (length sel < size)) as [Hlt|Hlt].
    + destruct (decide (rnd i `mod` (range - i) < size - length sel)) as [Hp|Hp].
      * destruct (Hstep i sel t) as (t' & E & HP'); [lia|done|done|done|done|]. rewrite E. cbn [obind]. eexists. split; [done|]. exists (sel ++ [i]). cbn [fst snd]. rewrite app_length. cbn [length].
        split; [done|]. split; [lia|]. split; [lia|]. split.
        -- apply ss_app. split; [done|]. split; [repeat constructor|]. rewrite Forall_forall in Hf |- *. intros x Hx. constructor; [by apply Hf|constructor].
        -- split; [|done]. apply Forall_app. split; [done|]. constructor; [lia|constructor].
      * eexists. split; [done|]. exists sel. cbn [fst snd]. split; [done|]. split; [done|]. split; [|done].
        assert (size - length sel <> range - i). { intros Eq. apply Hp. rewrite Eq. apply Nat.mod_upper_bound. lia. } lia.
    + eexists. split; [done|]. exists sel. cbn [fst snd]. split; [done|]. split; [done|]. split; [lia|done].
  - rewrite E. cbn [fst snd] in *. exists t, sel. replace cnt with size by lia. split; [done|]. split; [lia|]. done.
Qed.

(** Sampling without replacement. *)
Lemma sample_positions range size rnd (junk : list Z) : size <= range -> length junk = size ->
  exists sel, knuth range size rnd (fun i cnt res => wr res cnt (Z.of_nat i)) junk = Ok (Z.of_nat <$> sel, size) /\ length sel = size /\ StronglySorted lt sel /\ Forall (fun x => x < range) sel.
Proof.
  intros Hsz Hj. destruct (knuth_spec (fun sel (res : list Z) => length res = size /\ take (length sel) res = Z.of_nat <$> sel) range size rnd (fun i cnt res => wr res cnt (Z.of_nat i)) junk) as (t & sel & E & Hl & Hs & Hf & Hlen & Ht).
  - done.
  - done.
  - intros i sel t Hi Hlt Hs Hf [Hlen Ht]. rewrite wr_Ok by lia. eexists. split; [done|]. rewrite insert_length. split; [done|]. rewrite app_length. cbn [length]. replace (length sel + 1) with (S (length sel)) by lia.
    rewrite (take_S_r _ _ (Z.of_nat i)) by (apply list_lookup_insert; lia). rewrite take_insert by lia. by rewrite Ht, fmap_app.
  - exists sel. split; [|done]. rewrite E. do 2 f_equal. rewrite <- Ht. rewrite take_ge; [done|lia].
Qed.

Section sample_float.
Context {V : Type} (eqb : V -> V -> bool) (eqb_ok : forall x y, eqb x y = true <-> x = y).
Lemma contains_spec x (l : list V) : contains eqb x l = true <-> x ∈ l.
Proof.
  unfold contains. rewrite existsb_exists. split.
  - intros (y & Hy & E). apply eqb_ok in E as <-. by apply elem_of_list_In.
  - intros Hx. exists x. split; [by apply elem_of_list_In|by apply eqb_ok].
Qed.
(** Partial outcomes: Ok with a property, or Throw. *)
Definition holds {A} (Q : A -> Prop) (o : outcome A) : Prop := match o with Ok a => Q a | Throw => True | UB => False end.
Lemma holds_bind {A B} (Q : A -> Prop) (R : B -> Prop) (o : outcome A) k : holds Q o -> (forall a, Q a -> holds R (k a)) -> holds R (obind o k).
Proof. destruct o; cbn; auto. Qed.
Lemma for_up_holds {St} (P : nat -> St -> Prop) lo hi (f : nat -> St -> outcome St) s : lo <= hi -> P lo s ->
  (forall i t, lo <= i < hi -> P i t -> holds (P (1 + i)) (f i t)) -> holds (P hi) (for_up lo hi f s).
Proof.
  intros Hle Hs Hf. unfold for_up. remember (hi - lo) as k eqn:Ek. revert lo s Hle Hs Hf Ek. induction k as [|k IH]; intros lo s Hle Hs Hf Ek; cbn [forn].
  - replace hi with lo by lia. done.
  - apply (holds_bind (P (1 + lo))); [apply Hf; [lia|done]|]. intros t Ht. apply IH; [lia|done| |lia]. intros i u Hi. apply Hf. lia.
Qed.
Lemma draw_new_spec ds (con : list V) : holds (fun r => fst r ∉ con /\ exists pre, ds = pre ++ fst r :: snd r /\ Forall (fun x => x ∈ con) pre) (draw_new eqb ds con).
Proof.
  induction ds as [|d ds IH]; cbn; [done|]. destruct (contains eqb d con) eqn:E.
  - destruct (draw_new eqb ds con) as [[v rest]| |]; cbn in *; [|done|done]. destruct IH as (Hn & pre & -> & Hp). split; [done|]. exists (d :: pre). split; [done|]. constructor; [by apply contains_spec|done].
  - cbn. split; [intros Hin; apply contains_spec in Hin; congruence|]. by exists [].
Qed.
Lemma holds_impl {A} (Q R : A -> Prop) (o : outcome A) : holds Q o -> (forall a, Q a -> R a) -> holds R o.
Proof. destruct o; cbn; auto. Qed.
Lemma draw_new_ok ds (con : list V) x : x ∈ ds -> x ∉ con -> exists r, draw_new eqb ds con = Ok r.
Proof.
  induction ds as [|d ds IH]; intros Hx Hn; [by apply elem_of_nil in Hx|]. cbn. destruct (contains eqb d con) eqn:E; [|by eexists].
  apply IH; [|done]. apply elem_of_cons in Hx as [->|Hx]; [|done]. exfalso. apply Hn. by apply contains_spec.
Qed.
Definition sf_inv (size : nat) (ds : list V) (c : nat) (s : list V * list V * list V) : Prop :=
  let '(res, rest, con) := s in
  length res = size /\ take c res = rev con /\ NoDup con /\ length con = c /\ (exists pre, ds = pre ++ rest) /\ Forall (fun x => x ∈ ds) con /\ forall x, x ∈ ds -> x ∈ con \/ x ∈ rest.
Lemma sf_step size ds c s : c < size -> sf_inv size ds c s ->
  holds (sf_inv size ds (1 + c)) (let '(res, ds, contained) := s in let* (v, ds) := draw_new eqb ds contained in let* res := wr res c v in Ok (res, ds, v :: contained)).
Proof.
  destruct s as [[res rest] con]. intros Hc (Hl & Ht & Hnd & Hlc & (pre & Hds) & Hin & Hcov).
  apply (holds_bind (fun r => fst r ∉ con /\ exists p, rest = p ++ fst r :: snd r /\ Forall (fun x => x ∈ con) p)); [apply draw_new_spec|].
  intros [v rest'] [Hv (p & -> & Hp)]. cbn [fst snd] in *. rewrite wr_Ok by lia. cbn. rewrite insert_length. split; [done|]. split.
  - change (S c) with (S c). rewrite (take_S_r _ _ v) by (apply list_lookup_insert; lia). rewrite take_insert by lia. by rewrite Ht.
  - split; [by constructor|]. split; [lia|]. split; [exists (pre ++ p ++ [v]); rewrite Hds, <- !app_assoc; done|]. split.
    + constructor; [|done]. rewrite Hds. apply elem_of_app. right. apply elem_of_app. right. left.
    + intros x Hx. destruct (Hcov x Hx) as [?|Hx2]; [left; by right|]. apply elem_of_app in Hx2 as [Hx2|Hx2].
      * left. right. rewrite Forall_forall in Hp. by apply Hp.
      * apply elem_of_cons in Hx2 as [->|?]; [left; left|by right].
Qed.
Lemma sf_end size ds s : sf_inv size ds size s -> length (fst (fst s)) = size /\ NoDup (fst (fst s)) /\ Forall (fun x => x ∈ ds) (fst (fst s)).
Proof.
  destruct s as [[res rest] con]. intros (Hl & Ht & Hnd & Hlc & _ & Hin & _). cbn. rewrite take_ge in Ht by lia. split; [done|].
  assert (Hp : res ≡ₚ con). { rewrite Ht. symmetry. apply Permutation_rev. } split; [by rewrite Hp|by rewrite Hp].
Qed.
Lemma sf_init size ds (junk : list V) : length junk = size -> sf_inv size ds 0 (junk, ds, []).
Proof. intros Hj. split; [done|]. split; [done|]. split; [constructor|]. split; [done|]. split; [by exists []|]. split; [constructor|]. intros x Hx. by right. Qed.
Lemma sample_float_spec size ds (junk : list V) : length junk = size -> holds (fun res => length res = size /\ NoDup res /\ Forall (fun x => x ∈ ds) res) (sample_float eqb size ds junk).
Proof.
  intros Hj. unfold sample_float. apply (holds_bind (sf_inv size ds size)).
  - apply (for_up_holds (sf_inv size ds)); [lia|by apply sf_init|]. intros c s Hc Hs. apply sf_step; [lia|done].
  - intros s Hs. cbn. by apply (sf_end size ds s).
Qed.
Lemma sample_float_ok size ds (junk l : list V) : length junk = size -> NoDup l -> length l = size -> Forall (fun x => x ∈ ds) l -> exists res, sample_float eqb size ds junk = Ok res.
Proof.
  intros Hj Hnd Hl Hin. unfold sample_float.
  match goal with |- context [for_up 0 size ?f ?s0] => destruct (for_up_inv (sf_inv size ds) 0 size f s0) as (t & E & _) end.
  - lia.
  - by apply sf_init.
  - intros c s Hc Hs. pose proof (sf_step size ds c s) as Hst. specialize (Hst ltac:(lia) Hs). destruct s as [[res rest] con]. destruct Hs as (Hlr & _ & Hndc & Hlc & _ & _ & Hcov).
    assert (Hx : exists x, x ∈ l /\ x ∉ con).
    { destruct (decide (Exists (fun x => contains eqb x con = false) l)) as [Hex|Hne].
      - apply Exists_exists in Hex as (x & Hx & Hc'). exists x. split; [done|]. intros Hi. apply contains_spec in Hi. congruence.
      - exfalso. assert (Hsub : l ⊆+ con). { apply NoDup_submseteq; [done|]. intros x Hx. destruct (contains eqb x con) eqn:Ec; [by apply contains_spec|]. exfalso. apply Hne. apply Exists_exists. exists x. split; [done|done]. }
        apply submseteq_length in Hsub. lia. }
    destruct Hx as (x & Hxl & Hxc). rewrite Forall_forall in Hin. destruct (Hcov x (Hin x Hxl)) as [?|Hxr]; [done|]. destruct (draw_new_ok rest con x Hxr Hxc) as ([v rest'] & Ed).
    rewrite Ed in Hst |- *. cbn [obind] in *. rewrite wr_Ok in Hst |- * by lia. cbn [obind] in *. eexists. split; [done|]. exact Hst.
  - rewrite E. by eexists.
Qed.
End sample_float.

Section dense.
Context {V : Type} `{Val V} (zero_ok : forall v : V, viszero v = true <-> v = vzero).
(** numbers of a drawn list that are not zero *)
Definition nzs (ds : list V) : nat := length (filter (fun v => viszero v = false) ds).
Lemma draw_nz_ok ds : 0 < nzs ds -> exists v rest, draw_nz ds = Ok (v, rest) /\ viszero v = false /\ v ∈ ds /\ nzs rest = nzs ds - 1 /\ forall x, x ∈ rest -> x ∈ ds.
Proof.
  unfold nzs. induction ds as [|d ds IH]; cbn [draw_nz]; [cbn; lia|]. rewrite filter_cons. destruct (viszero d) eqn:E.
  - rewrite decide_False by done. intros Hn. destruct (IH Hn) as (v & rest & -> & Hv & Hin & Hr & Hsub). exists v, rest. split; [done|]. split; [done|]. split; [by right|]. split; [done|]. intros x Hx. right. auto.
  - rewrite decide_True by done. intros _. exists d, ds. split; [done|]. split; [done|]. split; [left|]. split; [cbn; lia|]. intros x Hx. by right.
Qed.
(** positions of non-zero cells *)
Definition nzcells (l : list V) : nat := length (filter (fun v => viszero v = false) l).
Lemma nzcells_insert l i v w : l !! i = Some w -> nzcells (<[i := v]> l) + (if viszero w then 0 else 1) = nzcells l + (if viszero v then 0 else 1).
Proof.
  unfold nzcells. revert i. induction l as [|x l IH]; intros i Hi; [done|]. destruct i as [|i].
  - injection Hi as ->. cbn [insert list_insert]. rewrite !filter_cons. destruct (viszero v) eqn:E1, (viszero w) eqn:E2; repeat ((rewrite decide_True by done) || (rewrite decide_False by done)); cbn [length]; lia.
  - cbn in Hi. change (<[S i := v]> (x :: l)) with (x :: <[i := v]> l). rewrite !filter_cons. specialize (IH i Hi). destruct (viszero x) eqn:E; repeat ((rewrite decide_True by done) || (rewrite decide_False by done)); cbn [length]; lia.
Qed.
Lemma nzcells_all l : Forall (fun v => viszero v = false) l -> nzcells l = length l.
Proof. intros Hl. unfold nzcells. induction Hl as [|x l Hx Hl IH]; [done|]. rewrite filter_cons_True by done. cbn. lia. Qed.
Lemma nzcells_none l : Forall (fun v => viszero v = true) l -> nzcells l = 0.
Proof. intros Hl. unfold nzcells. induction Hl as [|x l Hx Hl IH]; [done|]. rewrite filter_cons_False by congruence. done. Qed.
Lemma vzero_zero : viszero (vzero : V) = true.
Proof. by apply zero_ok. Qed.

(** What the values are: zero or drawn. *)
Definition from (ds : list V) (v : V) : Prop := v = vzero \/ (v ∈ ds /\ viszero v = false).
Lemma divmod_pos m n i : i < m * n -> i / m * m + i `mod` m = i.
Proof. intros Hi. pose proof (Nat.div_mod i m). destruct m; [lia|]. lia. Qed.

Lemma rand_dense_spec (many : bool) limit n m rndIdx ds junk : length junk = n * m -> limit <= n * m -> (if many then n * m else limit) <= nzs ds ->
  exists res rest, rand_dense many limit n m rndIdx ds junk = Ok (res, rest) /\ length res = n * m /\ Forall (from ds) res /\ nzcells res = if many then n * m - limit else limit.
Proof.
  intros Hj Hlim Hds. unfold rand_dense.
  match goal with |- context [for2 n m ?f ?s0] =>
    destruct (for2_inv (fun r c (s : list V * list V) => length (fst s) = n * m /\ (forall x, x ∈ snd s -> x ∈ ds) /\ (if many then n * m - (r * m + c) <= nzs (snd s) else limit <= nzs (snd s)) /\
      (forall k, k < r * m + c -> exists v, fst s !! k = Some v /\ (if many then v ∈ ds /\ viszero v = false else v = vzero))) n m f s0) as ([res1 ds1] & E & Hl1 & Hsub1 & Hn1 & Hv1) end.
  - cbn [fst snd]. split; [done|]. split; [done|]. split; [destruct many; [rewrite Nat.mul_0_l, Nat.add_0_r, Nat.sub_0_r; exact Hds|exact Hds]|]. intros k Hk. lia.
  - intros r c [res ds0] Hr Hc (Hl & Hsub & Hn & Hv). cbn [fst snd] in *. pose proof (pos_lt n m r c Hr Hc) as Hpos. destruct many.
    + destruct (draw_nz_ok ds0) as (v & rest & -> & Hz & Hin & Hr1 & Hs1); [lia|]. cbn [obind]. rewrite wr_Ok by lia. cbn [obind]. eexists. split; [done|]. cbn [fst snd]. rewrite insert_length. split; [done|]. split; [auto|]. split; [lia|].
      intros k Hk. destruct (decide (k = r * m + c)) as [->|Hne]; [exists v; split; [apply list_lookup_insert; lia|auto]|]. rewrite list_lookup_insert_ne by done. apply Hv. lia.
    + rewrite wr_Ok by lia. cbn [obind]. eexists. split; [done|]. cbn [fst snd]. rewrite insert_length. split; [done|]. split; [done|]. split; [done|].
      intros k Hk. destruct (decide (k = r * m + c)) as [->|Hne]; [exists vzero; split; [apply list_lookup_insert; lia|done]|]. rewrite list_lookup_insert_ne by done. apply Hv. lia.
  - intros r [res ds0] Hr (Hl & Hsub & Hn & Hv). cbn [fst snd] in *. replace ((1 + r) * m + 0) with (r * m + m) by lia. done.
  - cbn [fst snd] in *. rewrite E. cbn [obind]. rewrite Nat.add_0_r in Hn1, Hv1.
    assert (Hfrom1 : Forall (from ds) res1). { apply Forall_lookup. intros k v Hk. destruct (Hv1 k) as (v' & Hv' & Hp); [rewrite <- Hl1; by eapply lookup_lt_Some|]. rewrite Hk in Hv'. injection Hv' as <-. destruct many; [by right|by left]. }
    match goal with |- context [knuth (m * n) limit rndIdx ?body ?s0] =>
      destruct (knuth_spec (fun sel (s : list V * list V) => length (fst s) = n * m /\ (forall x, x ∈ snd s -> x ∈ ds) /\ (if many then True else limit - length sel <= nzs (snd s)) /\ Forall (from ds) (fst s) /\
        nzcells (fst s) + (if many then length sel else 0) = (if many then n * m else length sel) /\ (forall k, k < n * m -> k ∉ sel -> exists v, fst s !! k = Some v /\ viszero v = negb many)) (m * n) limit rndIdx body s0) as ([res2 ds2] & sel & E2 & Hls & Hss & Hfs & Hl2 & Hsub2 & _ & Hfrom2 & Hcnt & _) end.
    + lia.
    + cbn [fst snd length]. split; [done|]. split; [done|]. split; [destruct many; [done|lia]|]. split; [done|]. split.
      * destruct many; [rewrite Nat.add_0_r, nzcells_all; [done|]|rewrite Nat.add_0_r; apply nzcells_none].
        -- apply Forall_lookup. intros k v Hk. destruct (Hv1 k) as (v' & Hv' & _ & Hz); [rewrite <- Hl1; by eapply lookup_lt_Some|]. congruence.
        -- apply Forall_lookup. intros k v Hk. destruct (Hv1 k) as (v' & Hv' & ->); [rewrite <- Hl1; by eapply lookup_lt_Some|]. rewrite Hk in Hv'. injection Hv' as ->. apply vzero_zero.
      * intros k Hk _. destruct (Hv1 k Hk) as (v & Hv & Hp). exists v. split; [done|]. destruct many; [apply Hp|rewrite Hp; apply vzero_zero].
    + intros i sel [res ds0] Hi Hlt Hss Hfs (Hl & Hsub & Hn & Hfrom & Hcnt & Hkeep). cbn [fst snd] in *. rewrite (divmod_pos m n i Hi). rewrite app_length. cbn [length].
      destruct (Hkeep i) as (w & Hw & Hwz); [lia|intros Hin; rewrite Forall_forall in Hfs; specialize (Hfs _ Hin); cbn in Hfs; lia|].
      destruct many.
      * rewrite wr_Ok by lia. cbn [obind]. eexists. split; [done|]. cbn [fst snd]. rewrite insert_length. split; [done|]. split; [done|]. split; [done|]. split; [apply Forall_insert; [done|by left]|]. split.
        -- pose proof (nzcells_insert res i vzero w Hw) as Hins. rewrite Hwz, vzero_zero in Hins. cbn in Hins. lia.
        -- intros k Hk Hks. rewrite elem_of_app, elem_of_list_singleton in Hks. rewrite list_lookup_insert_ne by (intros <-; apply Hks; by right). apply Hkeep; [done|]. intros Hin. apply Hks. by left.
      * destruct (draw_nz_ok ds0) as (v & rest & -> & Hz & Hin & Hr1 & Hs1); [lia|]. cbn [obind]. rewrite wr_Ok by lia. cbn [obind]. eexists. split; [done|]. cbn [fst snd]. rewrite insert_length. split; [done|]. split; [auto|]. split; [lia|].
        split; [apply Forall_insert; [done|right; auto]|]. split.
        -- pose proof (nzcells_insert res i v w Hw) as Hins. rewrite Hwz, Hz in Hins. cbn in Hins. lia.
        -- intros k Hk Hks. rewrite elem_of_app, elem_of_list_singleton in Hks. rewrite list_lookup_insert_ne by (intros <-; apply Hks; by right). apply Hkeep; [done|]. intros Hin'. apply Hks. by left.
    + rewrite E2. cbn [obind fst snd] in *. exists res2, ds2. split; [done|]. split; [done|]. split; [done|]. destruct many; lia.
Qed.
End dense.

Lemma sum_list_insert (l : list nat) i v w : l !! i = Some w -> sum_list (<[i := v]> l) + w = sum_list l + v.
Proof.
  revert i. induction l as [|x l IH]; intros i Hi; [done|]. destruct i as [|i].
  - injection Hi as ->. cbn. lia.
  - cbn in Hi. change (<[S i := v]> (x :: l)) with (x :: <[i := v]> l). cbn. specialize (IH i Hi). lia.
Qed.
Lemma sum_list_app (l l' : list nat) : sum_list (l ++ l') = sum_list l + sum_list l'.
Proof. induction l as [|x l IH]; cbn; lia. Qed.
Lemma sum_list_take_le (l : list nat) i : sum_list (take i l) <= sum_list l.
Proof. rewrite <- (take_drop i l) at 2. rewrite sum_list_app. lia. Qed.
Lemma sum_list_take_S (l : list nat) i x : l !! i = Some x -> sum_list (take (S i) l) = sum_list (take i l) + x.
Proof. intros Hi. rewrite (take_S_r _ _ _ Hi), sum_list_app. cbn. lia. Qed.
Lemma concat_length {A} (ls : list (list A)) : length (concat ls) = sum_list (length <$> ls).
Proof. induction ls as [|l ls IH]; cbn; [done|]. rewrite app_length. lia. Qed.

(** rowOffsets during the assignment: one unused cell, then the number of entries of each row. *)
Definition counts (n m : nat) (ro cs : list nat) : Prop := (exists x0, ro = x0 :: cs) /\ length cs = n /\ Forall (fun k => k <= m) cs.
Lemma counts_rd n m ro cs r : counts n m ro cs -> r < n -> exists k, cs !! r = Some k /\ rd ro (r + 1) = Ok k /\ k <= m.
Proof.
  intros ((x0 & ->) & Hl & Hf) Hr. destruct (lookup_lt_is_Some_2 cs r) as [k Hk]; [lia|]. exists k. split; [done|]. split; [apply rd_Ok; replace (r + 1) with (S r) by lia; done|]. rewrite Forall_lookup in Hf. by eapply Hf.
Qed.
Lemma counts_wr n m ro cs r k : counts n m ro cs -> r < n -> k <= m -> exists ro', wr ro (r + 1) k = Ok ro' /\ counts n m ro' (<[r := k]> cs).
Proof.
  intros ((x0 & ->) & Hl & Hf) Hr Hk. rewrite wr_Ok by (cbn; lia). eexists. split; [done|]. replace (r + 1) with (S r) by lia. split; [by exists x0|]. split; [by rewrite insert_length|]. by apply Forall_insert.
Qed.
Lemma assign_up_spec n m nnz ds : Forall (fun r => r < n) ds -> forall ro cs assigned, counts n m ro cs -> sum_list cs = assigned -> assigned <= nnz ->
  holds (fun p => exists cs', counts n m (fst p) cs' /\ sum_list cs' = nnz) (assign_up m nnz ds ro assigned).
Proof.
  induction 1 as [|r ds Hr Hds IH]; intros ro cs assigned Hc Hs Ha; cbn [assign_up].
  - case_decide as Hd; cbn; [done|]. exists cs. split; [done|]. lia.
  - case_decide as Hd; [|cbn; exists cs; split; [done|lia]]. destruct (counts_rd _ _ _ _ r Hc Hr) as (k & Hk & -> & Hkm). cbn [obind]. case_decide as Hd2; [|by apply (IH _ cs)].
    destruct (counts_wr _ _ _ _ r (k + 1) Hc Hr) as (ro' & -> & Hc'); [lia|]. cbn [obind]. apply (IH _ _ _ Hc'); [|lia]. pose proof (sum_list_insert cs r (k + 1) k Hk). lia.
Qed.
Lemma assign_down_spec n m nnz ds : Forall (fun r => r < n) ds -> forall ro cs assigned, counts n m ro cs -> sum_list cs = assigned -> nnz <= assigned ->
  holds (fun p => exists cs', counts n m (fst p) cs' /\ sum_list cs' = nnz) (assign_down nnz ds ro assigned).
Proof.
  induction 1 as [|r ds Hr Hds IH]; intros ro cs assigned Hc Hs Ha; cbn [assign_down].
  - case_decide as Hd; cbn; [done|]. exists cs. split; [done|]. lia.
  - case_decide as Hd; [|cbn; exists cs; split; [done|lia]]. destruct (counts_rd _ _ _ _ r Hc Hr) as (k & Hk & -> & Hkm). cbn [obind]. case_decide as Hd2; [|by apply (IH _ cs)].
    destruct (counts_wr _ _ _ _ r (k - 1) Hc Hr) as (ro' & -> & Hc'); [lia|]. cbn [obind]. apply (IH _ _ _ Hc'); [|lia]. pose proof (sum_list_insert cs r (k - 1) k Hk). lia.
Qed.

Lemma set_add_elem c s x : x ∈ set_add c s -> x = c \/ x ∈ s.
Proof.
  induction s as [|y s IH]; cbn [set_add]; [rewrite elem_of_list_singleton; auto|]. case_decide; [rewrite !elem_of_cons; tauto|]. case_decide; [auto|]. rewrite !elem_of_cons. tauto.
Qed.
Lemma set_add_sorted c s : StronglySorted lt s -> StronglySorted lt (set_add c s).
Proof.
  induction 1 as [|y s Hs IH Hy]; cbn [set_add]; [repeat constructor|]. case_decide as H1.
  - constructor; [by constructor|]. constructor; [done|]. rewrite Forall_forall in Hy |- *. intros x Hx. specialize (Hy x Hx). lia.
  - case_decide as H2; [by constructor|]. constructor; [done|]. rewrite Forall_forall in Hy |- *. intros x Hx. apply set_add_elem in Hx as [->|Hx]; [lia|by apply Hy].
Qed.
Lemma set_add_length c s : length (set_add c s) <= S (length s).
Proof. induction s as [|y s IH]; cbn [set_add]; [done|]. case_decide; [done|]. case_decide; cbn; lia. Qed.
Lemma fill_set_spec m target ds : Forall (fun c => c < m) ds -> forall s, StronglySorted lt s -> Forall (fun c => c < m) s -> length s <= target ->
  holds (fun p => StronglySorted lt (fst p) /\ Forall (fun c => c < m) (fst p) /\ length (fst p) = target /\ Forall (fun c => c < m) (snd p)) (fill_set target ds s).
Proof.
  induction 1 as [|d ds Hd Hds IH]; intros s Hs Hm Hl; cbn [fill_set].
  - case_decide; cbn; [done|]. split; [done|]. split; [done|]. split; [lia|constructor].
  - case_decide; [|cbn; split; [done|]; split; [done|]; split; [lia|by constructor]]. apply IH.
    + by apply set_add_sorted.
    + rewrite Forall_forall in Hm |- *. intros x Hx. apply set_add_elem in Hx as [->|Hx]; [done|by apply Hm].
    + pose proof (set_add_length d s). lia.
Qed.

Lemma put_cols_spec l cs pos : pos + length l <= length cs -> exists cs', put_cols l (cs, pos) = Ok (cs', pos + length l) /\ length cs' = length cs /\ take (pos + length l) cs' = take pos cs ++ l.
Proof.
  intros Hl. unfold put_cols.
  match goal with |- context [for_up 0 (length l) ?f ?s0] =>
    destruct (for_up_inv (fun i (s : list nat * nat) => snd s = pos + i /\ length (fst s) = length cs /\ take (pos + i) (fst s) = take pos cs ++ take i l) 0 (length l) f s0) as ([cs' p] & E & Hp & Hlen & Ht) end.
  - lia.
  - cbn. rewrite Nat.add_0_r, take_0, app_nil_r. done.
  - intros i [cs' p] Hi (Hp & Hlen & Ht). cbn [fst snd] in *. subst p. destruct (lookup_lt_is_Some_2 l i) as [c Hc]; [lia|]. rewrite (rd_Ok _ _ _ Hc). cbn [obind]. rewrite wr_Ok by lia. cbn [obind]. eexists. split; [done|]. cbn [fst snd].
    rewrite insert_length. split; [lia|]. split; [done|]. replace (pos + (1 + i)) with (S (pos + i)) by lia. rewrite (take_S_r _ _ c) by (apply list_lookup_insert; lia). rewrite take_insert by lia. rewrite Ht. change (1 + i) with (S i).
    by rewrite (take_S_r _ _ _ Hc), app_assoc.
  - cbn [fst snd] in *. subst p. exists cs'. split; [exact E|]. split; [done|]. by rewrite (take_ge l) in Ht by lia.
Qed.
Lemma filter_seq_mono (st : list nat) c m : c <= m -> length (filter (fun x => x ∉ st) (seq 0 c)) <= length (filter (fun x => x ∉ st) (seq 0 m)).
Proof. intros Hc. replace m with (c + (m - c)) by lia. rewrite seq_app, filter_app, app_length. lia. Qed.
Lemma put_rest_spec (st : list nat) m cs pos : pos + length (filter (fun c => c ∉ st) (seq 0 m)) <= length cs ->
  exists cs', for_up 0 m (fun c (s : list nat * nat) => if decide (c ∈ st) then Ok s else let* cs := wr (fst s) (snd s) c in Ok (cs, snd s + 1)) (cs, pos)
      = Ok (cs', pos + length (filter (fun c => c ∉ st) (seq 0 m))) /\ length cs' = length cs /\ take (pos + length (filter (fun c => c ∉ st) (seq 0 m))) cs' = take pos cs ++ filter (fun c => c ∉ st) (seq 0 m).
Proof.
  intros Hl.
  match goal with |- context [for_up 0 m ?f ?s0] =>
    destruct (for_up_inv (fun i (s : list nat * nat) => snd s = pos + length (filter (fun c => c ∉ st) (seq 0 i)) /\ length (fst s) = length cs /\ take (snd s) (fst s) = take pos cs ++ filter (fun c => c ∉ st) (seq 0 i)) 0 m f s0) as ([cs' p] & E & Hp & Hlen & Ht) end.
  - lia.
  - cbn. rewrite Nat.add_0_r, app_nil_r. done.
  - intros i [cs' p] Hi (Hp & Hlen & Ht). cbn [fst snd] in *. change (1 + i) with (S i). rewrite seq_S, filter_app, filter_cons, filter_nil. cbn [plus]. pose proof (filter_seq_mono st (S i) m ltac:(lia)) as Hm. rewrite seq_S, filter_app, filter_cons, filter_nil, app_length in Hm. cbn [plus] in Hm.
    destruct (decide (i ∈ st)) as [Hd|Hd].
    + rewrite decide_False by (intros Hn; by apply Hn). rewrite app_nil_r. eexists. split; [done|]. done.
    + rewrite decide_True in Hm |- * by done. cbn [length] in Hm. rewrite app_length. cbn [length]. rewrite wr_Ok by lia. cbn [obind]. eexists. split; [done|]. cbn [fst snd]. rewrite insert_length. split; [lia|]. split; [done|].
      replace (p + 1) with (S p) by lia. rewrite (take_S_r _ _ i) by (apply list_lookup_insert; lia). rewrite take_insert by lia. by rewrite Ht, app_assoc.
  - cbn [fst snd] in *. subst p. by exists cs'.
Qed.
Lemma seq_sorted a k : StronglySorted lt (seq a k).
Proof. revert a. induction k as [|k IH]; intros a; cbn; constructor; [apply IH|]. apply Forall_forall. intros x Hx. apply elem_of_seq in Hx. lia. Qed.
Lemma filter_sorted (P : nat -> Prop) `{!forall x, Decision (P x)} l : StronglySorted lt l -> StronglySorted lt (filter P l).
Proof. induction 1 as [|x l Hs IH Hx]; [constructor|]. rewrite filter_cons. case_decide; [|done]. constructor; [done|]. rewrite Forall_forall in Hx |- *. intros y Hy. apply elem_of_list_filter in Hy as [_ Hy]. by apply Hx. Qed.
Lemma nodup_sorted (l : list nat) : StronglySorted lt l -> NoDup l.
Proof. induction 1 as [|x l Hs IH Hx]; constructor; [|done]. rewrite Forall_forall in Hx. intros Hin. specialize (Hx _ Hin). lia. Qed.
Lemma rest_length (st : list nat) m : StronglySorted lt st -> Forall (fun c => c < m) st -> length (filter (fun c => c ∉ st) (seq 0 m)) = m - length st.
Proof.
  intros Hs Hm. assert (Hp : filter (fun c => c ∉ st) (seq 0 m) ++ st ≡ₚ seq 0 m).
  { apply NoDup_Permutation.
    - apply NoDup_app. split; [apply NoDup_filter, NoDup_seq|]. split; [|by apply nodup_sorted]. intros x Hx. by apply elem_of_list_filter in Hx as [? _].
    - apply NoDup_seq.
    - intros x. rewrite elem_of_app, elem_of_list_filter, elem_of_seq. rewrite Forall_forall in Hm. split; [intros [[_ ?]|Hx]; [done|specialize (Hm _ Hx); cbn in Hm; lia]|]. intros Hx. destruct (decide (x ∈ st)); auto. }
  apply Permutation_length in Hp. rewrite app_length, seq_length in Hp. lia.
Qed.

Definition cols_inv (n m nnz : nat) (cs : list nat) (r : nat) (s : list nat * nat * list nat) : Prop :=
  let '(arr, pos, ds) := s in
  length arr = nnz /\ Forall (fun c => c < m) ds /\ exists rows : list (list nat), length <$> rows = take r cs /\ pos = length (concat rows) /\ take pos arr = concat rows /\
    Forall (fun l => StronglySorted lt l /\ Forall (fun c => c < m) l) rows.
Lemma rand_cols_spec (few : bool) n m nnz ro cs arr ds : counts n m ro cs -> sum_list cs = nnz -> length arr = nnz -> Forall (fun c => c < m) ds ->
  holds (cols_inv n m nnz cs n) (rand_cols few n m ro (arr, 0, ds)).
Proof.
  intros Hc Hs Ha Hds. unfold rand_cols. pose proof Hc as (_ & Hlen & _). apply (for_up_holds (cols_inv n m nnz cs)); [lia| |].
  - split; [done|]. split; [done|]. exists []. done.
  - intros r [[arr' pos] ds'] Hr (Harr & Hds' & rows & Hrows & Hpos & Ht & Hok). destruct (counts_rd _ _ _ _ r Hc) as (k & Hk & -> & Hkm); [lia|]. cbn [obind].
    assert (Hroom : pos + k <= nnz). { rewrite Hpos, concat_length, Hrows, <- (sum_list_take_S _ _ _ Hk), <- Hs. apply sum_list_take_le. }
    assert (Hnew : forall l arr2, length l = k -> StronglySorted lt l -> Forall (fun c => c < m) l -> length arr2 = nnz -> take (pos + k) arr2 = take pos arr' ++ l -> forall ds2, Forall (fun c => c < m) ds2 -> cols_inv n m nnz cs (1 + r) (arr2, pos + k, ds2)).
    { intros l arr2 Hl Hsl Hml Ha2 Ht2 ds2 Hd2. split; [done|]. split; [done|]. exists (rows ++ [l]). rewrite fmap_app, Hrows. change (1 + r) with (S r). split; [rewrite (take_S_r _ _ _ Hk); cbn; by rewrite Hl|].
      rewrite concat_app. cbn [concat]. rewrite app_nil_r, app_length. split; [lia|]. split; [by rewrite Ht2, Ht|]. apply Forall_app. split; [done|]. by repeat constructor. }
    destruct few.
    + apply (holds_bind (fun p => StronglySorted lt (fst p) /\ Forall (fun c => c < m) (fst p) /\ length (fst p) = k /\ Forall (fun c => c < m) (snd p))).
      * apply (fill_set_spec m); [done|constructor|constructor|cbn; lia].
      * intros [st ds2] (Hst & Hmt & Hl & Hd2). cbn [fst snd] in *. destruct (put_cols_spec st arr' pos) as (arr2 & E & Hl2 & Ht2); [lia|]. rewrite E. cbn [obind holds]. rewrite Hl in Ht2 |- *. apply (Hnew st); (done || lia).
    + apply (holds_bind (fun p => StronglySorted lt (fst p) /\ Forall (fun c => c < m) (fst p) /\ length (fst p) = m - k /\ Forall (fun c => c < m) (snd p))).
      * apply (fill_set_spec m); [done|constructor|constructor|cbn; lia].
      * intros [st ds2] (Hst & Hmt & Hl & Hd2). cbn [fst snd] in *. pose proof (rest_length st m Hst Hmt) as Hrl. destruct (put_rest_spec st m arr' pos) as (arr2 & E & Hl2 & Ht2); [lia|]. rewrite E. cbn [obind holds]. rewrite Hrl in Ht2 |- *. replace (m - length st) with k in Ht2 |- * by lia.
        apply (Hnew (filter (fun c => c ∉ st) (seq 0 m))); [lia|apply filter_sorted, seq_sorted| |lia|done|done]. apply Forall_forall. intros x Hx. apply elem_of_list_filter in Hx as [_ Hx]. apply elem_of_seq in Hx. lia.
Qed.

(** Columns and values of a matrix given row by row. *)
Fixpoint attach {V} (rows : list (list nat)) (vs : list V) : list (row V) :=
  match rows with [] => [] | l :: rows' => zip l (take (length l) vs) :: attach rows' (drop (length l) vs) end.
Lemma attach_spec {V} (rows : list (list nat)) : forall vs : list V, length vs = length (concat rows) ->
  (concat (attach rows vs)).*1 = concat rows /\ (concat (attach rows vs)).*2 = vs /\ (fun l => l.*1) <$> attach rows vs = rows /\ length (attach rows vs) = length rows.
Proof.
  induction rows as [|l rows IH]; intros vs Hl; cbn in Hl |- *; [by destruct vs|]. rewrite app_length in Hl. rewrite !fmap_app. assert (Ht : length (take (length l) vs) = length l) by (rewrite take_length; lia).
  destruct (IH (drop (length l) vs)) as (H1 & H2 & H3 & H4); [rewrite drop_length; lia|]. rewrite H1, H2, H4. rewrite fst_zip, snd_zip by lia. split; [done|]. split; [apply take_drop|]. split; [|done]. f_equal. done.
Qed.
Lemma prefix_sums_spec n (ro cs : list nat) x0 : ro = x0 :: cs -> length cs = n ->
  exists ro', (let* ro := wr ro 0 0 in for_up 1 (n + 1) (fun i ro => let* x := rd ro i in let* y := rd ro (i - 1) in wr ro i (x + y)) ro) = Ok ro' /\ length ro' = n + 1 /\ forall i, i <= n -> ro' !! i = Some (sum_list (take i cs)).
Proof.
  intros -> Hl. rewrite wr_Ok by (cbn; lia). cbn [obind insert list_insert].
  match goal with |- context [for_up 1 (n + 1) ?f ?s0] =>
    destruct (for_up_inv (fun i (ro : list nat) => length ro = n + 1 /\ (forall j, j < i -> ro !! j = Some (sum_list (take j cs))) /\ forall j, i <= j -> ro !! j = cs !! (j - 1)) 1 (n + 1) f s0) as (ro' & E & Hlen & Hlo & _) end.
  - lia.
  - split; [cbn; lia|]. split; [intros j Hj; replace j with 0 by lia; done|]. intros j Hj. destruct j as [|j]; [lia|]. cbn. by rewrite Nat.sub_0_r.
  - intros i ro Hi (Hlen & Hlo & Hhi). destruct (lookup_lt_is_Some_2 cs (i - 1)) as [k Hk]; [lia|]. rewrite (rd_Ok _ i k) by (rewrite Hhi; done). cbn [obind]. rewrite (rd_Ok _ (i - 1) (sum_list (take (i - 1) cs))) by (apply Hlo; lia). cbn [obind].
    rewrite wr_Ok by lia. eexists. split; [done|]. rewrite insert_length. split; [done|]. split.
    + intros j Hj. destruct (decide (j = i)) as [->|Hne].
      * rewrite list_lookup_insert by lia. f_equal. replace i with (S (i - 1)) at 2 by lia. rewrite (sum_list_take_S _ _ _ Hk). lia.
      * rewrite list_lookup_insert_ne by done. apply Hlo. lia.
    + intros j Hj. rewrite list_lookup_insert_ne by lia. apply Hhi. lia.
  - exists ro'. split; [exact E|]. split; [done|]. intros i Hi. apply Hlo. lia.
Qed.

Section csr.
Context {V : Type} `{Val V}.
Lemma rand_csr_spec (few : bool) nnz n m (vals : nat -> V) rds cds b h : csr_new_uninit n m nnz b h -> nnz <= n * m -> Forall (fun r => r < n) rds -> Forall (fun c => c < m) cds ->
  holds (fun p => exists rs, covers (fst p) (snd p) rs /\ snd p = h /\ length rs = n /\ stored rs = nnz /\ (concat rs).*2 = vals <$> seq 0 nnz) (rand_csr few nnz n m vals rds cds b).
Proof.
  intros (Hv & Hc & Hr & Hh) Hnnz Hrds Hcds. unfold rand_csr.
  destruct (for_up_write nnz (fun i vs => wr vs i (vals i)) vals (bvals b) Hv) as (vs & -> & Hlv & Hvs); [done|]. cbn [obind].
  assert (Evs : vs = vals <$> seq 0 nnz). { apply list_eq. intros i. rewrite list_lookup_fmap. destruct (decide (i < nnz)) as [Hi|Hi]; [by rewrite Hvs, lookup_seq_lt|]. rewrite lookup_seq_ge by lia. apply lookup_ge_None_2. lia. }
  match goal with |- context [for_up 0 n ?f (broff b)] =>
    destruct (for_up_inv (fun i (ro : list nat) => length ro = n + 1 /\ forall j, j < i -> ro !! S j = Some (if few then 0 else m)) 0 n f (broff b)) as (ro & E & Hlro & Hro) end.
  { lia. } { split; [done|lia]. }
  { intros i ro Hi (Hl & Hlo). rewrite wr_Ok by lia. eexists. split; [done|]. rewrite insert_length. split; [done|]. intros j Hj. replace (i + 1) with (S i) by lia. destruct (decide (j = i)) as [->|]; [apply list_lookup_insert; lia|]. rewrite list_lookup_insert_ne by lia. apply Hlo. lia. }
  rewrite E. cbn [obind]. destruct ro as [|x0 cs0]; [cbn in Hlro; lia|]. cbn in Hlro. assert (Ecs : cs0 = replicate n (if few then 0 else m)). { apply list_eq. intros j. destruct (decide (j < n)) as [Hj|Hj]; [rewrite lookup_replicate_2 by done; by apply Hro|]. rewrite !lookup_ge_None_2; [done|rewrite replicate_length; lia|lia]. }
  assert (Hc0 : counts n m (x0 :: cs0) cs0). { split; [by exists x0|]. split; [lia|]. subst cs0. apply Forall_replicate. destruct few; lia. }
  assert (Hsum : forall k, sum_list (replicate n k) = n * k) by (intros k; induction n as [|n' IHn]; cbn; [done|]; clear -k; induction n' as [|q IH]; cbn in *; lia).
  apply (holds_bind (fun p => exists cs', counts n m (fst p) cs' /\ sum_list cs' = nnz)).
  { destruct few; [apply (assign_up_spec n m nnz rds Hrds _ cs0); [done|rewrite Ecs, Hsum; lia|lia]|apply (assign_down_spec n m nnz rds Hrds _ cs0); [done|rewrite Ecs, Hsum; lia|lia]]. }
  intros [ro rest] (cs & Hcs & Hsc). cbn [fst] in Hcs. apply (holds_bind (cols_inv n m nnz cs n)); [by apply rand_cols_spec|]. intros [[arr pos] ds'] (Harr & _ & rows & Hrows & Hpos & Ht & Hok).
  pose proof Hcs as ((y0 & Ero) & Hlcs & _). rewrite (take_ge cs n) in Hrows by lia. destruct (prefix_sums_spec n ro cs y0 Ero Hlcs) as (ro' & E2 & Hlro' & Hro').
  match goal with |- holds _ ?o => assert (Eo : o = (let* ro0 := (let* ro := wr ro 0 0 in for_up 1 (n + 1) (fun i ro => let* x := rd ro i in let* y := rd ro (i - 1) in wr ro i (x + y)) ro) in Ok (mkBuf vs arr ro0, mkH 0 n m n false nnz 0))) by (destruct (wr ro 0 0); done); rewrite Eo, E2 end.
  cbn [obind holds fst snd]. assert (Hpn : length (concat rows) = nnz) by (rewrite concat_length, Hrows; done).
  destruct (attach_spec rows vs) as (A1 & A2 & A3 & A4); [rewrite Evs, fmap_length, seq_length; lia|]. exists (attach rows vs).
  assert (Hln : length rows = n) by (rewrite <- (fmap_length length rows), Hrows; done).
  split; [|split; [by rewrite Hh|split; [lia|split; [unfold stored; rewrite <- (fmap_length fst), A1; done|by rewrite A2]]]].
  split; cbn.
  - split; [|exists [], []; rewrite !app_nil_r; split; [cbn; rewrite A1, <- Ht, take_ge; [done|lia]|split; [by rewrite A2|cbn; done]]].
    cbn. apply list_eq. intros i. destruct (decide (i <= n)) as [Hi|Hi].
    + rewrite Hro' by done. rewrite offsets_lookup by lia. f_equal. rewrite Nat.add_0_l. rewrite concat_length, <- Hrows, fmap_take. f_equal. f_equal. rewrite <- A3 at 1. rewrite <- list_fmap_compose. apply list_fmap_ext. intros k l _. cbn. by rewrite fmap_length.
    + rewrite !lookup_ge_None_2; [done|rewrite offsets_length; lia|lia].
  - rewrite Forall_lookup in Hok. apply Forall_lookup. intros i l Hl. assert (Hi : rows !! i = Some l.*1) by (rewrite <- A3, list_lookup_fmap, Hl; done). destruct (Hok _ _ Hi) as [H1 H2]. split; done.
  - lia.
  - lia.
  - done.
Qed.
End csr.
