(** The loop over the pairs of pipelines, and the pairs it starts with. *)
From stdpp Require Import base numbers sorting list.
From Verif Require Import CppBase OrderProofs FusionModel FusionSpec FusionProofs HFuseModel HFuseSpec HFuseProofs.
Implicit Types (it p q : list vop) (blk ps : list (list vop)).

Section loop.
  Context (cls : nat -> nat).
  Lemma renew_length a b l : length (renew a b l) <= length l.
  Proof. unfold renew. etrans; [apply filter_length|]. by rewrite fmap_length. Qed.

  Lemma loop n : forall blk l, length l <= n -> inv cls blk l ->
    exists blk', fuse_all n blk l = Ok blk' /\ concat blk' ≡ₚ concat blk /\ inv cls blk' [] /\
      (forall k, concat (pipes cls k blk') = concat (pipes cls k blk)) /\ (forall it, plain it -> it ∈ blk' <-> it ∈ blk) /\
      (forall k0, (forall k, k <> k0 -> length (pipes cls k blk) <= 1) -> eff_ok cls k0 blk -> pure blk -> effects (concat blk') = effects (concat blk)).
  Proof.
    induction n as [|n IH]; intros blk [|[a b] l] Hl Hinv; cbn [length] in Hl; try lia; try (exists blk; split; [done|]; split; [done|]; split; [exact Hinv|]; done). cbn [fuse_all].
    destruct (step cls blk a b l Hinv) as (pre & p & rg & q & post & blk1 & Eblk & Hf & Eblk' & HP & Hinv' & Ea & (rest & Ep & Ep' & Epost) & Hoth & Hpl).
    rewrite Hf. cbn [obind]. destruct (IH blk1 (renew a b l)) as (blk' & H1 & H2 & H3 & H4 & H5 & H6); [pose proof (renew_length a b l); lia|done|].
    exists blk'. split; [done|]. split; [by rewrite H2|]. split; [done|]. split.
    { intros k. rewrite H4. destruct (decide (k = cls a)) as [->|Hk]; [|by rewrite Hoth]. rewrite Ep, Ep'. cbn. by rewrite <- app_assoc. }
    split. { intros it Hit. rewrite (H5 it Hit). by apply Hpl. }
    intros k0 Hone Heff Hpure. assert (k0 = cls a) as ->. { destruct (decide (cls a = k0)); [done|]. specialize (Hone (cls a)). rewrite Ep in Hone. cbn in Hone. lia. }
    destruct (step_effects cls blk a b l Hinv Hpure Heff blk1 Hf) as [E1 E2]. rewrite <- E1. apply (H6 (cls a)); [|done|].
    - intros k Hk. rewrite Hoth by done. by apply Hone.
    - intros o Ho. apply Hpure. by rewrite <- HP.
  Qed.

  (** The pairs for one class *)
  Lemma number p ps : NoDup (head_id <$> ps) -> exists n : nat -> nat, forall q, q ∈ ps -> n (head_id q) = pred (length (common p q)).
  Proof.
    induction ps as [|q ps IH]; cbn; [exists (fun _ => 0); by intros q ?%elem_of_nil|]. intros [H1 H2]%NoDup_cons. destruct (IH H2) as (n & Hn).
    exists (fun c => if decide (c = head_id q) then pred (length (common p q)) else n c). intros q' [->|Hq]%elem_of_cons; [by rewrite decide_True|]. rewrite decide_False; [by apply Hn|]. intros E. apply H1. rewrite <- E. by apply elem_of_list_fmap_1.
  Qed.
  Lemma in_order_tail x hs e : in_order hs e -> in_order (x :: hs) e.
  Proof. intros (i & j & H1 & H2 & H3). exists (S i), (S j). split; [lia|done]. Qed.
  Lemma pairs_sweep blk k ps : NoDup (head_id <$> ps) -> (forall p, p ∈ ps -> is_pipe p = true) ->
    (forall p q, p ∈ ps -> q ∈ ps -> p <> q -> op_dep blk q (head_id p) = false) ->
    (forall p q, p ∈ ps -> q ∈ ps -> p <> q -> (common p q <> [] <-> cls (head_id p) = cls (head_id q))) ->
    sweep (head_id <$> pipes cls k ps) (filter (fun e => cls (fst e) = k) (pairs_of blk ps)).
  Proof.
    induction ps as [|p ps IH]; [done|]. cbn [fmap list_fmap]. intros [Hnp Hn]%NoDup_cons Hpp Hd Hc.
    assert (forall q, q ∈ ps -> p <> q) as Hne by (intros q Hq ->; apply Hnp; by apply elem_of_list_fmap_1).
    specialize (IH Hn ltac:(intros; apply Hpp; by right) ltac:(intros; apply Hd; [by right|by right|done]) ltac:(intros; apply Hc; [by right|by right|done])).
    cbn [pairs_of]. rewrite filter_app. set (mine := ps ≫= _). unfold pipes. rewrite filter_cons. fold (pipes cls k ps).
    assert (forall e, e ∈ mine -> fst e = head_id p) as Hmine.
    { intros e (q & He & Hq)%elem_of_list_bind. destruct (op_dep blk q (head_id p)); [by apply elem_of_nil in He|]. by apply elem_of_list_fmap in He as (? & -> & _). }
    destruct (decide (cls (head_id p) = k)) as [Hk|Hk].
    - rewrite decide_True by (split; [apply Hpp; left|done]). cbn [fmap list_fmap sweep]. destruct (number p ps Hn) as (n & Hnn). exists n, (filter (fun e => cls (fst e) = k) (pairs_of blk ps)). split.
      + f_equal. transitivity mine.
        { assert (forall e, e ∈ mine -> cls (fst e) = k) as H by (intros e He; by rewrite (Hmine e He)). clear - H. induction mine as [|e l IH]; [done|]. rewrite filter_cons_True by (apply H; left). f_equal. apply IH. intros; apply H; by right. }
        unfold mine. assert (forall q, q ∈ ps -> op_dep blk q (head_id p) = false) as Hd' by (intros q Hq; apply Hd; [left|by right|by apply Hne]).
        assert (forall q, q ∈ ps -> common p q <> [] <-> cls (head_id q) = k) as Hc'. { intros q Hq. rewrite (Hc p q); [split; congruence|left|by right|by apply Hne]. }
        assert (forall q, q ∈ ps -> is_pipe q = true) as Hpp' by (intros; apply Hpp; by right).
        clear - Hd' Hc' Hnn Hpp'. induction ps as [|q ps IH]; [done|]. cbn [mbind list_bind]. rewrite (Hd' q) by left. unfold pipes. rewrite filter_cons. fold (pipes cls k ps).
        rewrite IH by (intros; (apply Hd' || apply Hc' || apply Hnn || apply Hpp'); by right).
        destruct (decide (of_class cls k q)) as [Hq|Hq].
        * cbn [fmap list_fmap mbind list_bind]. f_equal. rewrite Hnn by left. destruct Hq as [_ Hq]. apply Hc' in Hq; [|left]. destruct (common p q) as [|e l]; [done|]. cbn [length pred]. cbn. f_equal. clear. induction l as [|? ? IH']; [done|]. cbn. f_equal. exact IH'.
        * assert (common p q = []) as ->; [|done]. destruct (decide (common p q = [])) as [|H]; [done|]. exfalso. apply Hq. split; [apply Hpp'; left|]. apply Hc'; [left|done].
      + intros e He. apply in_order_tail. by eapply sweep_in.
    - rewrite decide_False by (intros [_ ?]; done). assert (filter (fun e => cls (fst e) = k) mine = []) as ->; [|done].
      assert (forall e, e ∈ mine -> cls (fst e) <> k) as H by (intros e He; by rewrite (Hmine e He)). clear - H. induction mine as [|e l IH]; [done|]. rewrite filter_cons_False by (apply H; left). apply IH. intros; apply H; by right.
  Qed.
End loop.

(** * Sharing a scan *)
Lemma scans_inputs it a : scans it a <-> (a, true) ∈ inputs it.
Proof.
  unfold scans, inputs. rewrite elem_of_list_bind. split.
  - intros (o & H1 & H2 & H3). exists o. rewrite elem_of_list_filter. done.
  - intros (o & [H2 H3]%elem_of_list_filter & H1). by exists o.
Qed.
Lemma share_common p q : share p q <-> common p q <> [].
Proof.
  unfold share, common. split.
  - intros (a & H1%scans_inputs & H2%scans_inputs) E. assert ((a, true) ∈ filter (fun e : nat * bool => snd e = true /\ e ∈ inputs q) (inputs p)) as H by (by rewrite elem_of_list_filter). rewrite E in H. by apply elem_of_nil in H.
  - intros H. destruct (filter _ _) as [|[a b] l] eqn:E; [done|]. assert ((a, b) ∈ filter (fun e : nat * bool => snd e = true /\ e ∈ inputs q) (inputs p)) as Hin by (rewrite E; left). rewrite elem_of_list_filter in Hin. cbn in Hin. destruct Hin as [[-> H1] H2]. exists a. by rewrite !scans_inputs.
Qed.
Lemma share_sym p q : share p q -> share q p.
Proof. intros (a & H1 & H2). by exists a. Qed.
Global Instance share_dec p q : Decision (share p q).
Proof. destruct (decide (common p q = [])) as [E|E]; [right|left]; rewrite share_common; [by intros H|done]. Defined.

(** The class of a pipeline: the first one that is the same or shares a scan with it *)
Definition meets ps (h : nat) p : Prop := head_id p = h \/ Exists (fun q => head_id q = h /\ share p q) ps.
Global Instance meets_dec ps h p : Decision (meets ps h p).
Proof. unfold meets. apply _. Defined.
Definition group ps (h : nat) : nat := match list_find (meets ps h) ps with Some (i, _) => i | None => 0 end.
Lemma meets_iff ps p q : NoDup (head_id <$> ps) -> p ∈ ps -> q ∈ ps -> meets ps (head_id q) p <-> p = q \/ share p q.
Proof.
  intros Hn Hp Hq. assert (forall x y, x ∈ ps -> y ∈ ps -> head_id x = head_id y -> x = y) as Hinj.
  { intros x y (i & Hi)%elem_of_list_lookup (j & Hj)%elem_of_list_lookup E. assert (i = j) as ->; [|congruence]. eapply (NoDup_lookup (head_id <$> ps)); [done| |]; rewrite list_lookup_fmap; [by rewrite Hi|rewrite Hj; cbn; by rewrite E]. }
  unfold meets. rewrite Exists_exists. split.
  - intros [E|(x & Hx & E & Hs)]; [left; by apply Hinj|right]. by rewrite (Hinj q x).
  - intros [->|Hs]; [by left|right]. by exists q.
Qed.
Lemma list_find_ext (P Q : list vop -> Prop) `{!forall x, Decision (P x)} `{!forall x, Decision (Q x)} ps : (forall x, x ∈ ps -> P x <-> Q x) -> list_find P ps = list_find Q ps.
Proof.
  induction ps as [|x ps IH]; intros Hpq; [done|]. cbn. pose proof (Hpq x ltac:(left)) as Hx. rewrite IH by (intros; apply Hpq; by right). destruct (decide (P x)), (decide (Q x)); tauto.
Qed.
Lemma group_share ps p q : NoDup (head_id <$> ps) -> p ∈ ps -> q ∈ ps -> p <> q ->
  (forall x y z, x ∈ ps -> y ∈ ps -> z ∈ ps -> x <> y -> y <> z -> x <> z -> share x y -> share y z -> share x z) ->
  share p q <-> group ps (head_id p) = group ps (head_id q).
Proof.
  intros Hn Hp Hq Hpq Ht. unfold group. split.
  - intros Hs. rewrite (list_find_ext (meets ps (head_id p)) (meets ps (head_id q)) ps); [done|]. intros x Hx. rewrite !meets_iff by done. destruct (decide (x = p)) as [->|Hxp]; [tauto|]. destruct (decide (x = q)) as [->|Hxq]; [split; [tauto|]; intros _; right; by apply share_sym|].
    split; intros [?|H]; try done; right; [by apply (Ht x p q)|]. apply (Ht x q p); try done. by apply share_sym.
  - assert (forall r, r ∈ ps -> exists i x, list_find (meets ps (head_id r)) ps = Some (i, x)) as Hf. { intros r Hr. destruct (list_find (meets ps (head_id r)) ps) as [[i x]|] eqn:E; [by exists i, x|]. apply list_find_None in E. rewrite Forall_forall in E. exfalso. apply (E r Hr). by left. }
    destruct (Hf p Hp) as (i & x & Ei), (Hf q Hq) as (j & y & Ej). rewrite Ei, Ej. intros <-. apply list_find_Some in Ei as (L1 & M1 & _), Ej as (L2 & M2 & _). assert (y = x) as -> by congruence. assert (x ∈ ps) as Hx by (by eapply elem_of_list_lookup_2).
    apply meets_iff in M1; [|done..]. apply meets_iff in M2; [|done..]. destruct M1 as [->|M1], M2 as [->|M2]; [done|done|by apply share_sym|].
    destruct (decide (x = p)) as [->|Hxp]; [done|]. destruct (decide (x = q)) as [->|Hxq]; [by apply share_sym|]. apply (Ht p x q); try done. by apply share_sym.
Qed.

Lemma filter_app_inv {X} (P : X -> Prop) `{!forall x, Decision (P x)} l : forall l1 l2, filter P l = l1 ++ l2 -> exists a b, l = a ++ b /\ filter P a = l1 /\ filter P b = l2.
Proof.
  induction l as [|x l IH]; intros l1 l2 E.
  - symmetry in E. apply app_nil in E as [-> ->]. by exists [], [].
  - rewrite filter_cons in E. destruct (decide (P x)) as [Hx|Hx].
    + destruct l1 as [|z l1]; cbn in E; [exists [], (x :: l); rewrite filter_cons_True by done; done|]. injection E as <- E. destruct (IH _ _ E) as (a & b & -> & <- & <-). exists (x :: a), b. by rewrite filter_cons_True by done.
    + destruct (IH _ _ E) as (a & b & -> & <- & <-). exists (x :: a), b. by rewrite filter_cons_False by done.
Qed.

(** * The pass *)
Section pass.
  Context blk (Ho : ordered (concat blk)) (Hw : well_formed blk) (Hin : independent blk) (Ht : transitive_sharing blk) (Hne : nested_plain blk) (Hfol : followed blk).
  Definition all_pipes blk := filter (fun it => is_pipe it = true) blk.
  Definition cls_of := group (all_pipes blk).
  Local Notation cls := cls_of.
  Lemma all_pipes_in it : it ∈ all_pipes blk <-> it ∈ blk /\ pipeline it.
  Proof. unfold all_pipes. rewrite elem_of_list_filter. split; intros [H1 H2]; (split; [|]); try done; by apply (is_pipe_iff blk it Hw). Qed.
  Lemma all_heads : NoDup (head_id <$> all_pipes blk).
  Proof. eapply sublist_NoDup; [|by apply (heads_nodup blk)]. apply fmap_sublist, sub_filter. Qed.
  Lemma cls_share p q : p ∈ blk -> q ∈ blk -> pipeline p -> pipeline q -> p <> q -> share p q <-> cls (head_id p) = cls (head_id q).
  Proof.
    intros Hp Hq Pp Pq Hpq. apply group_share; [apply all_heads|by apply all_pipes_in..|done|]. intros x y z [Hx1 Hx2]%all_pipes_in [Hy1 Hy2]%all_pipes_in [Hz1 Hz2]%all_pipes_in. by apply Ht.
  Qed.
  Lemma pipes_in k it : it ∈ pipes cls k blk <-> it ∈ blk /\ pipeline it /\ cls (head_id it) = k.
  Proof. unfold pipes, of_class. rewrite elem_of_list_filter. split; [intros [[H1 H2] H3]; split; [done|]; split; [|done]|intros (H1 & H2 & H3); split; [split; [|done]|done]]; by apply (is_pipe_iff blk it Hw). Qed.

  Lemma pipes_all k : pipes cls k (all_pipes blk) = pipes cls k blk.
  Proof.
    unfold all_pipes, pipes, of_class. clear. induction blk as [|it blk' IH]; [done|]. rewrite !filter_cons. destruct (decide (is_pipe it = true)) as [E|E].
    - rewrite filter_cons, IH. done.
    - rewrite IH. rewrite decide_False; [done|]. intros [? _]. done.
  Qed.
  Lemma same_class k p q : p ∈ pipes cls k blk -> q ∈ pipes cls k blk -> p = q \/ share p q.
  Proof. intros (H1 & H2 & H3)%pipes_in (H4 & H5 & H6)%pipes_in. destruct (decide (p = q)); [by left|right]. apply cls_share; [done..|congruence]. Qed.
  Lemma start : inv cls blk (pairs_of blk (all_pipes blk)).
  Proof.
    split; try done.
    - intros k l1 p q l2 E. assert (p ∈ pipes cls k blk) as Hp by (rewrite E; apply elem_of_app; right; left). assert (q ∈ pipes cls k blk) as Hq by (rewrite E; apply elem_of_app; right; right; left).
      destruct (filter_app_inv _ _ _ _ E) as (k0 & k0' & Ek0 & _ & E2). destruct (filter_two _ _ _ _ _ E2) as (k1' & k2 & k3 & Ek & _). assert (blk = (k0 ++ k1') ++ p :: k2 ++ q :: k3) as Ek1 by (rewrite Ek0, Ek; by rewrite <- app_assoc). clear Ek. rename Ek1 into Ek. set (k1 := k0 ++ k1') in *. assert (p <> q) as Hpq. { pose proof (wf_nodup blk Ho Hw) as Hnb. intros ->. rewrite Ek in Hnb. apply NoDup_app in Hnb as (_ & _ & Hnb). apply NoDup_cons in Hnb as [Hnb _]. apply Hnb, elem_of_app. right. left. }
      destruct (same_class k p q Hp Hq) as [|Hs]; [done|]. apply pipes_in in Hp as (Hp1 & Hp2 & _), Hq as (Hq1 & Hq2 & _).
      destruct (Hfol k1 p k2 q k3 Ek Hp2 Hq2 Hs) as (f & l4 & -> & H1 & H2 & H3). exists f. split; [|done]. exists k1, (l4 ++ q :: k3). by rewrite Ek.
    - intros k. rewrite <- pipes_all. apply pairs_sweep; [apply all_heads|..].
      + intros p Hp. unfold all_pipes in Hp. by apply elem_of_list_filter in Hp as [? _].
      + intros p q [Hp1 Hp2]%all_pipes_in [Hq1 Hq2]%all_pipes_in Hpq. destruct (op_dep blk q (head_id p)) eqn:E; [exfalso|done]. pose proof Hp1 as Hp3. pose proof Hq1 as Hq3. apply elem_of_list_lookup in Hp3 as (i & Hi), Hq3 as (j & Hj).
        destruct (op_dep_reach blk j q (head_id p) i p) as (y & r & Hy & Hr & Hre); try done; [eapply pos_lookup; [apply Ho|done|by eapply head_in]|]. by apply (Hin q p y r).
      + intros p q [Hp1 Hp2]%all_pipes_in [Hq1 Hq2]%all_pipes_in Hpq. rewrite <- share_common. by apply cls_share.
  Qed.

  Lemma pass : exists blk', hfuse blk = Ok blk' /\ concat blk' ≡ₚ concat blk /\ ordered (concat blk') /\ well_formed blk' /\
    (forall it, plain it -> it ∈ blk' <-> it ∈ blk) /\
    (forall p, p ∈ blk -> pipeline p -> exists ps, ps `sublist_of` blk /\ (forall q, q ∈ ps <-> q ∈ blk /\ pipeline q /\ (q = p \/ share p q)) /\ concat ps ∈ blk') /\
    (forall it, it ∈ blk' -> pipeline it -> exists p ps, p ∈ blk /\ pipeline p /\ ps `sublist_of` blk /\ (forall q, q ∈ ps <-> q ∈ blk /\ pipeline q /\ (q = p \/ share p q)) /\ it = concat ps) /\
    (one_group blk -> effects_need blk -> pure blk -> effects (concat blk') = effects (concat blk)).
  Proof.
    destruct (loop cls (length (pairs_of blk (all_pipes blk))) blk (pairs_of blk (all_pipes blk)) ltac:(done) start) as (blk' & H1 & H2 & [Io Iw Ii In If Is] & H4 & H5 & H6).
    exists blk'. split; [exact H1|]. split; [done|]. split; [done|]. split; [done|]. split; [done|].
    assert (forall k, length (pipes cls k blk') <= 1) as Hone.
    { intros k. specialize (Is k). change (filter (fun e : nat * nat => cls (fst e) = k) []) with (@nil (nat * nat)) in Is. destruct (pipes cls k blk') as [|x [|y l]]; cbn; [lia|lia|]. cbn in Is. destruct Is as (n & t & E & _). done. }
    assert (forall p q, p ∈ blk -> pipeline p -> q ∈ pipes cls (cls (head_id p)) blk <-> q ∈ blk /\ pipeline q /\ (q = p \/ share p q)) as Hcls.
    { intros p q Hp Pp. rewrite pipes_in. destruct (decide (q = p)) as [->|Hqp]; [tauto|]. split.
      - intros (G1 & G2 & G3). split; [done|]. split; [done|right]. by apply cls_share.
      - intros (G1 & G2 & [?|G3]); [done|]. split; [done|]. split; [done|]. apply cls_share in G3; done. }
    assert (forall it, it ∈ blk' -> pipeline it -> it = concat (pipes cls (cls (head_id it)) blk)) as Hit.
    { intros it Hi Pi. rewrite <- H4. assert (it ∈ pipes cls (cls (head_id it)) blk') as Hm. { unfold pipes. apply elem_of_list_filter. split; [|done]. split; [|done]. by apply (is_pipe_iff blk'). }
      specialize (Hone (cls (head_id it))). destruct (pipes cls (cls (head_id it)) blk') as [|x [|y l]]; [by apply elem_of_nil in Hm| |cbn in Hone; lia]. apply elem_of_list_singleton in Hm as <-. cbn. by rewrite app_nil_r. }
    split; [|split].
    - intros p Hp Pp. exists (pipes cls (cls (head_id p)) blk). split; [apply sub_filter|]. split; [intros q; by apply Hcls|].
      specialize (Hone (cls (head_id p))). specialize (H4 (cls (head_id p))). assert (p ∈ pipes cls (cls (head_id p)) blk) as Hm by (apply pipes_in; done).
      destruct (pipes cls (cls (head_id p)) blk') as [|x [|y l]] eqn:E; [|..|cbn in Hone; lia].
      + exfalso. destruct Pp as [Pp _]. destruct p as [|o p]; [done|]. assert (o ∈ concat (pipes cls (cls (head_id (o :: p))) blk)) as G by (apply elem_concat; exists (o :: p); split; [done|left]). rewrite <- H4 in G. by apply elem_of_nil in G.
      + rewrite <- H4. cbn. rewrite app_nil_r. assert (x ∈ pipes cls (cls (head_id p)) blk') as G by (rewrite E; left). unfold pipes in G. by apply elem_of_list_filter in G as [_ G].
    - intros it Hi Pi. pose proof (Hit it Hi Pi) as E. assert (exists p, p ∈ pipes cls (cls (head_id it)) blk) as (p & Hp).
      { destruct (pipes cls (cls (head_id it)) blk) as [|p l]; [cbn in E; subst it; by destruct Pi|]. exists p. left. }
      exists p, (pipes cls (cls (head_id it)) blk). pose proof Hp as (G1 & G2 & G3)%pipes_in. split; [done|]. split; [done|]. split; [apply sub_filter|]. split; [|done]. intros q. rewrite <- G3. by apply Hcls.
    - intros Hg Hn Hpure. assert (exists k0, forall k, k <> k0 -> length (pipes cls k blk) <= 1) as (k0 & Hk0).
      { destruct (decide (Exists (fun p => 2 <= length (pipes cls (cls (head_id p)) blk)) (all_pipes blk))) as [Hex|Hex].
        - apply Exists_exists in Hex as (p & Hp & Hl). apply all_pipes_in in Hp as [Hp Pp]. exists (cls (head_id p)). intros k Hk. destruct (decide (length (pipes cls k blk) <= 1)) as [|Hk2]; [done|]. exfalso.
          assert (forall k', 2 <= length (pipes cls k' blk) -> exists x y, x ∈ pipes cls k' blk /\ y ∈ pipes cls k' blk /\ x <> y) as Htwo.
          { intros k' Hk'. pose proof (pipe_heads_nodup cls blk k' Ho Hw) as Hnh. destruct (pipes cls k' blk) as [|x [|y l]]; cbn in Hk'; [lia|lia|]. exists x, y. split; [left|]. split; [right; left|]. intros ->. cbn in Hnh. apply NoDup_cons in Hnh as [Hnh _]. apply Hnh. left. }
          destruct (Htwo _ Hl) as (x & y & Hx & Hy & Hxy), (Htwo k ltac:(lia)) as (x' & y' & Hx' & Hy' & Hxy').
          destruct (same_class _ x y Hx Hy) as [|S1]; [done|]. destruct (same_class _ x' y' Hx' Hy') as [|S2]; [done|].
          apply pipes_in in Hx as (X1 & X2 & X3), Hy as (Y1 & Y2 & _), Hx' as (X1' & X2' & X3'), Hy' as (Y1' & Y2' & _).
          destruct (decide (x = x')) as [->|Hxx]; [congruence|]. destruct (Hg x y x' y') as [|S3]; try done. apply cls_share in S3; [congruence|done..].
        - exists 0. intros k _. destruct (decide (length (pipes cls k blk) <= 1)) as [|Hk2]; [done|]. exfalso. apply Hex, Exists_exists. destruct (pipes cls k blk) as [|x l] eqn:E; [cbn in Hk2; lia|]. assert (x ∈ pipes cls k blk) as (G1 & G2 & G3)%pipes_in by (rewrite E; left). exists x. split; [by apply all_pipes_in|]. rewrite G3, E. cbn in *. lia. }
      apply (H6 k0 Hk0); [|done]. intros k1 p k2 e k3 q k4 E Hp Hq He. destruct (same_class _ p q Hp Hq) as [->|Hs].
      { exfalso. pose proof (wf_nodup blk Ho Hw) as Hnb. rewrite E in Hnb. apply NoDup_app in Hnb as (_ & _ & Hnb). apply NoDup_cons in Hnb as [Hnb _]. apply Hnb. rewrite elem_of_app, elem_of_cons, elem_of_app, elem_of_cons. tauto. }
      pose proof Hp as (G1 & G2 & G3)%pipes_in. pose proof Hq as (G4 & G5 & _)%pipes_in. destruct (Hn k1 p k2 e k3 q k4 E G2 G5 Hs He) as (it & r & Q1 & Q2 & Q3 & Q4 & Q5). exists it, r. split; [|done]. rewrite <- G3. by apply Hcls.
  Qed.
End pass.
