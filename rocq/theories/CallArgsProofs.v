(** Proofs about function calls. *)
From stdpp Require Import base numbers list.
From Coq Require Import Lia.
From Verif Require Import CppBase CallArgsModel CallArgsSpec.

Section order.
Context {V : Type} (params : list name).
Notation nm e := (mkArg (Some (fst e)) (snd e)).

Lemma index_of_spec ps n i : index_of ps n = Some i -> ps !! i = Some n.
Proof.
  revert i. induction ps as [|p ps IH]; intros i H; [discriminate H|]. cbn [index_of] in H. destruct (decide (p = n)) as [->|N].
  - injection H as <-. reflexivity.
  - destruct (index_of ps n) as [j|]; [|discriminate H]. injection H as <-. exact (IH j eq_refl).
Qed.
Lemma index_of_nodup ps n i : NoDup ps -> ps !! i = Some n -> index_of ps n = Some i.
Proof.
  revert i. induction ps as [|p ps IH]; intros i ND H; [discriminate H|]. apply NoDup_cons in ND as [NI ND]. cbn [index_of]. destruct i as [|i].
  - injection H as ->. rewrite decide_True by reflexivity. reflexivity.
  - cbn in H. rewrite decide_False by (intros ->; apply NI; apply elem_of_list_lookup_2 with i; exact H). rewrite (IH i ND H). reflexivity.
Qed.
Lemma index_of_none ps n : index_of ps n = None -> n ∉ ps.
Proof.
  induction ps as [|p ps IH]; intros H; [apply not_elem_of_nil|]. cbn [index_of] in H. destruct (decide (p = n)) as [->|N]; [discriminate H|].
  destruct (index_of ps n); [discriminate H|]. apply not_elem_of_cons. split; [congruence|apply IH; reflexivity].
Qed.

(** ** The slots *)
Lemma place_no_ub (args : list (arg V)) : forall s p b, length s = length params -> place params s p b args <> UB.
Proof.
  induction args as [|a args IH]; intros s p b L; cbn [place]; [discriminate|]. destruct (a_name a) as [n|].
  - destruct (index_of params n) as [i|] eqn:E; [|discriminate]. apply index_of_spec, lookup_lt_Some in E.
    destruct (lookup_lt_is_Some_2 s i ltac:(lia)) as [x Hx]. rewrite (rd_Ok _ _ _ Hx). cbn [obind]. destruct x; [discriminate|].
    rewrite wr_Ok by lia. cbn [obind]. apply IH. rewrite insert_length. exact L.
  - destruct b; [discriminate|]. destruct (decide (length params <= p)); [discriminate|]. rewrite wr_Ok by lia. cbn [obind]. apply IH. rewrite insert_length. exact L.
Qed.
(** After a keyword there are only keywords. *)
Lemma place_seen (args : list (arg V)) : forall s p s', place params s p true args = Ok s' -> exists named, args = map (fun e => nm e) named.
Proof.
  induction args as [|[o v] args IH]; intros s p s' H; cbn [place a_name] in H; [exists []; reflexivity|].
  destruct o as [n|]; [|discriminate H]. destruct (index_of params n) as [i|]; [|discriminate H].
  destruct (rd s i) as [x| |]; [|discriminate H|discriminate H]. cbn [obind] in H. destruct x; [discriminate H|].
  destruct (wr s i _) as [w| |]; [|discriminate H|discriminate H]. cbn [obind] in H. destruct (IH _ _ _ H) as [named ->]. exists ((n, v) :: named). reflexivity.
Qed.
Lemma place_split (args : list (arg V)) : forall s p s', place params s p false args = Ok s' -> exists pos named, split_args args pos named.
Proof.
  induction args as [|[o v] args IH]; intros s p s' H; [exists [], []; reflexivity|]. destruct o as [n|].
  - destruct (place_seen ((mkArg (Some n) v) :: args) s p s') as [named E]; [exact H|]. exists [], named. exact E.
  - cbn [place a_name] in H. destruct (decide (length params <= p)); [discriminate H|]. destruct (wr s p _) as [w| |]; [|discriminate H|discriminate H].
    cbn [obind] in H. destruct (IH _ _ _ H) as (pos & named & SP). unfold split_args in SP. subst args. exists (v :: pos), named. reflexivity.
Qed.
Lemma place_named_false named s p : place params s p false (map (fun e => nm e) named) = place params s p true (map (fun e : name * V => nm e) named).
Proof. destruct named as [|[n v] named]; reflexivity. Qed.
Lemma place_pos (pos : list V) : forall pre k rest, length params = length pre + k ->
  place params (map Some pre ++ replicate k None) (length pre) false (map (mkArg None) pos ++ rest) =
  if decide (length pos <= k) then place params (map Some (pre ++ pos) ++ replicate (k - length pos) None) (length pre + length pos) false rest else Throw.
Proof.
  induction pos as [|v pos IH]; intros pre k rest L; cbn [map app length].
  - rewrite decide_True by lia. rewrite app_nil_r, Nat.sub_0_r, Nat.add_0_r. reflexivity.
  - cbn [place a_name a_val]. destruct k as [|k].
    + rewrite decide_True by lia. rewrite decide_False by lia. reflexivity.
    + rewrite decide_False by lia. rewrite wr_Ok by (rewrite app_length, map_length, replicate_length; lia). cbn [obind replicate].
      rewrite insert_app_r_alt by (rewrite map_length; lia). rewrite map_length, Nat.sub_diag. change (<[0:=Some v]> (None :: replicate k None)) with (Some v :: replicate k (@None V)).
      specialize (IH (pre ++ [v]) k rest). rewrite app_length, map_app, <- !app_assoc in IH. cbn [length map app] in IH. rewrite Nat.add_1_r in IH. rewrite IH by lia.
      destruct (decide (length pos <= k)); [rewrite decide_True by lia|rewrite decide_False by lia; reflexivity].
      rewrite Nat.sub_succ. f_equal. lia.
Qed.

(** ** Keywords *)
Lemma place_named named : forall s p s', NoDup params -> length s = length params ->
  place params s p true (map (fun e : name * V => nm e) named) = Ok s' ->
  NoDup (map fst named) /\ length s' = length s /\
  (forall n v, (n, v) ∈ named -> exists i, params !! i = Some n /\ s !! i = Some None /\ s' !! i = Some (Some v)) /\
  (forall i n, params !! i = Some n -> n ∉ map fst named -> s' !! i = s !! i).
Proof.
  induction named as [|[n v] named IH]; intros s p s' ND L H; cbn [map fst snd] in *.
  - cbn [place] in H. injection H as <-. split; [constructor|]. split; [reflexivity|]. split; [intros n v X; apply elem_of_nil in X as []|reflexivity].
  - cbn [place a_name a_val] in H. destruct (index_of params n) as [i|] eqn:E; [|discriminate H]. apply index_of_spec in E. pose proof (lookup_lt_Some _ _ _ E) as Li.
    destruct (lookup_lt_is_Some_2 s i ltac:(lia)) as [x Hx]. rewrite (rd_Ok _ _ _ Hx) in H. cbn [obind] in H. destruct x; [discriminate H|].
    rewrite wr_Ok in H by lia. cbn [obind] in H. destruct (IH _ _ _ ND ltac:(rewrite insert_length; exact L) H) as (N & L' & A & B). rewrite insert_length in L'.
    assert (NI : n ∉ map fst named).
    { intros X. apply elem_of_list_In, in_map_iff in X as ([n' v'] & En & X). cbn in En. subst n'. apply elem_of_list_In in X. destruct (A n v' X) as (j & J1 & J2 & _).
      pose proof (NoDup_lookup _ _ _ _ ND J1 E) as ->. rewrite list_lookup_insert in J2 by lia. discriminate J2. }
    split; [constructor; assumption|]. split; [exact L'|]. split.
    + intros m w X. apply elem_of_cons in X as [[= -> ->]|X].
      * exists i. split; [exact E|]. split; [exact Hx|]. rewrite (B i n E NI). apply list_lookup_insert. lia.
      * destruct (A m w X) as (j & J1 & J2 & J3). exists j. split; [exact J1|]. split; [|exact J3].
        destruct (decide (i = j)) as [->|N']; [rewrite list_lookup_insert in J2 by lia; discriminate J2|]. rewrite list_lookup_insert_ne in J2 by exact N'. exact J2.
    + intros j m Hj Hm. apply not_elem_of_cons in Hm as [M1 M2]. rewrite (B j m Hj M2). apply list_lookup_insert_ne. intros ->. congruence.
Qed.
Lemma place_named_total named : forall s p, NoDup params -> length s = length params -> NoDup (map fst named) ->
  (forall n v, (n, v) ∈ named -> exists i, params !! i = Some n /\ s !! i = Some None) ->
  exists s', place params s p true (map (fun e : name * V => nm e) named) = Ok s'.
Proof.
  induction named as [|[n v] named IH]; intros s p ND L N A; cbn [map fst snd] in *; [exists s; reflexivity|].
  apply NoDup_cons in N as [N1 N2]. destruct (A n v ltac:(left)) as (i & Hi & Hs). cbn [place a_name a_val]. rewrite (index_of_nodup _ _ _ ND Hi).
  rewrite (rd_Ok _ _ _ Hs). cbn [obind]. rewrite wr_Ok by (apply lookup_lt_Some in Hs; exact Hs). cbn [obind]. apply IH; [exact ND|rewrite insert_length; exact L|exact N2|].
  intros m w X. destruct (A m w ltac:(right; exact X)) as (j & J1 & J2). exists j. split; [exact J1|]. rewrite list_lookup_insert_ne; [exact J2|].
  intros ->. assert (m = n) as -> by congruence. apply N1. apply elem_of_list_In, in_map_iff. exists (n, w). split; [reflexivity|apply elem_of_list_In, X].
Qed.

(** ** Gathering *)
Lemma last_none (s : list (option V)) i l : Forall (fun x => x = None) s -> last_provided s i l = l.
Proof. intros H. revert i l. induction H as [|x s -> _ IH]; intros i l; [reflexivity|]. apply IH. Qed.
Lemma last_some (s : list (option V)) : forall i l, (exists x, Some x ∈ s) -> exists s1 x s2, s = s1 ++ Some x :: s2 /\ Forall (fun x => x = None) s2 /\ last_provided s i l = Some (i + length s1).
Proof.
  induction s as [|y s IH]; intros i l [x Hx]; [apply elem_of_nil in Hx as []|].
  destruct (decide (Exists (fun y => y <> None) s)) as [X|X].
  - assert (HX : exists x, Some x ∈ s).
    { apply Exists_exists in X as ([z|] & Hz & NN); [exists z; exact Hz|contradiction]. }
    destruct y as [y|]; cbn [last_provided].
    + destruct (IH (S i) (Some i) HX) as (s1 & z & s2 & -> & F & E). exists (Some y :: s1), z, s2. split; [reflexivity|]. split; [exact F|]. rewrite E. cbn [length]. f_equal. lia.
    + destruct (IH (S i) l HX) as (s1 & z & s2 & -> & F & E). exists (None :: s1), z, s2. split; [reflexivity|]. split; [exact F|]. rewrite E. cbn [length]. f_equal. lia.
  - assert (F : Forall (fun y => y = None) s).
    { apply Forall_forall. intros z Hz. destruct z as [z|]; [|reflexivity]. exfalso. apply X. apply Exists_exists. exists (Some z). split; [exact Hz|discriminate]. }
    apply elem_of_cons in Hx as [<-|Hx]; [|rewrite Forall_forall in F; discriminate (F _ Hx)].
    exists [], x, s. split; [reflexivity|]. split; [exact F|]. cbn [last_provided length]. rewrite (last_none s (S i) (Some i) F). f_equal. lia.
Qed.
Lemma gather_ok (s : list (option V)) : forall vals, gather s = Ok vals <-> s = map Some vals.
Proof.
  induction s as [|[x|] s IH]; intros vals; cbn [gather].
  - split; [intros [= <-]; reflexivity|intros H; destruct vals; [reflexivity|discriminate H]].
  - destruct (gather s) as [r| |] eqn:E; cbn [obind].
    + split; [intros [= <-]; cbn [map]; f_equal; apply IH; reflexivity|]. intros H. destruct vals as [|v vals]; [discriminate H|]. injection H as -> H. apply IH in H. injection H as ->. reflexivity.
    + split; [discriminate|]. intros H. destruct vals as [|v vals]; [discriminate H|]. injection H as -> H. apply IH in H. discriminate H.
    + split; [discriminate|]. intros H. destruct vals as [|v vals]; [discriminate H|]. injection H as -> H. apply IH in H. discriminate H.
  - split; [discriminate|]. intros H. destruct vals; discriminate H.
Qed.
Lemma gather_no_ub (s : list (option V)) : gather s <> UB.
Proof. induction s as [|[x|] s IH]; cbn [gather]; try discriminate. destruct (gather s); [discriminate|discriminate|contradiction]. Qed.
Definition finish (s : list (option V)) : outcome (list V) := match last_provided s 0 None with None => Ok [] | Some l => gather (take (S l) s) end.
Lemma finish_no_ub s : finish s <> UB.
Proof. unfold finish. destruct (last_provided s 0 None); [apply gather_no_ub|discriminate]. Qed.
Lemma all_none_replicate (s : list (option V)) : Forall (fun x => x = None) s -> s = replicate (length s) None.
Proof. induction 1 as [|x s -> _ IH]; [reflexivity|]. cbn [length replicate]. f_equal. exact IH. Qed.
Lemma finish_ok s vals : finish s = Ok vals <-> exists k, s = map Some vals ++ replicate k None.
Proof.
  unfold finish. destruct (decide (Exists (fun y => y <> None) s)) as [X|X].
  - assert (HX : exists x, Some x ∈ s).
    { apply Exists_exists in X as ([z|] & Hz & NN); [exists z; exact Hz|contradiction]. }
    destruct (last_some s 0 None HX) as (s1 & x & s2 & -> & F & ->). cbn [Nat.add].
    assert (T : take (S (length s1)) (s1 ++ Some x :: s2) = s1 ++ [Some x]) by (change (Some x :: s2) with ([Some x] ++ s2); rewrite app_assoc; apply take_app_alt; rewrite app_length; cbn; lia).
    rewrite T, gather_ok. split.
    + intros E. exists (length s2). rewrite <- E, <- app_assoc, <- all_none_replicate by exact F. reflexivity.
    + intros [k E]. destruct vals as [|v0 vals0] using rev_ind.
      * exfalso. cbn [map app] in E. assert (Y : Some x ∈ replicate k (@None V)) by (rewrite <- E, elem_of_app, elem_of_cons; tauto). apply elem_of_replicate in Y as [Y _]. discriminate Y.
      * clear IHvals0. rewrite map_app in E |- *. cbn [map] in E |- *. rewrite <- app_assoc in E. cbn [app] in E.
        assert (R : Forall (fun y => y = None) (replicate k (@None V))) by (apply Forall_replicate; reflexivity).
        revert E. generalize (replicate k (@None V)) R. intros r Rr E. apply app_eq_app in E as (m & [[-> E]|[E1 E]]).
        -- destruct m as [|y m]; [rewrite app_nil_r in *; cbn [app] in E; injection E as -> ->; reflexivity|].
           cbn [app] in E. injection E as <- E. subst r. exfalso. rewrite Forall_forall in Rr. specialize (Rr (Some x)). rewrite elem_of_app, elem_of_cons in Rr. discriminate (Rr ltac:(tauto)).
        -- rewrite E1. destruct m as [|y m]; [rewrite app_nil_r; cbn [app] in E; injection E as -> ->; reflexivity|].
           cbn [app] in E. injection E as <- E. subst s2. exfalso. rewrite Forall_forall in F. specialize (F (Some v0)). rewrite elem_of_app, elem_of_cons in F. discriminate (F ltac:(tauto)).
  - assert (F : Forall (fun y => y = None) s).
    { apply Forall_forall. intros z Hz. destruct z as [z|]; [|reflexivity]. exfalso. apply X. apply Exists_exists. exists (Some z). split; [exact Hz|discriminate]. }
    rewrite (last_none s 0 None F). split.
    + intros [= <-]. exists (length s). apply all_none_replicate, F.
    + intros [k E]. destruct vals as [|v vals]; [reflexivity|]. subst s. cbn [map app] in F. apply Forall_inv in F. discriminate F.
Qed.

(** ** Ordering *)
Lemma order_eq (args : list (arg V)) : params <> [] -> order_args params args =
  if decide (length params < length args) then Throw else let* s := place params (replicate (length params) None) 0 false args in finish s.
Proof. unfold order_args. destruct params; [contradiction|reflexivity]. Qed.
Lemma order_no_ub (args : list (arg V)) : order_args params args <> UB.
Proof.
  unfold order_args. destruct params as [|p ps] eqn:EP; [destruct (decide _); discriminate|]. rewrite <- EP.
  destruct (decide (length params < length args)); [discriminate|].
  pose proof (place_no_ub args (replicate (length params) None) 0 false ltac:(rewrite replicate_length; reflexivity)) as P.
  destruct (place params _ 0 false args) as [s| |]; [|discriminate|contradiction]. cbn [obind]. apply finish_no_ub.
Qed.
Lemma slots_lookup (pos : list V) k i : (map Some pos ++ replicate k (@None V)) !! i = if decide (i < length pos) then Some <$> pos !! i else if decide (i < length pos + k) then Some None else None.
Proof.
  destruct (decide (i < length pos)) as [L|L].
  - rewrite lookup_app_l by (rewrite map_length; exact L). apply list_lookup_fmap.
  - rewrite lookup_app_r by (rewrite map_length; lia). rewrite map_length. destruct (decide (i < length pos + k)).
    + apply lookup_replicate_2. lia.
    + apply lookup_ge_None_2. rewrite replicate_length. lia.
Qed.
Lemma slots_value (vals : list V) k i v : (map Some vals ++ replicate k (@None V)) !! i = Some (Some v) <-> vals !! i = Some v.
Proof.
  rewrite slots_lookup. destruct (decide (i < length vals)) as [L|L].
  - destruct (vals !! i); cbn; [split; intros [= ->]; reflexivity|split; discriminate].
  - rewrite (lookup_ge_None_2 vals i) by lia. destruct (decide _); split; discriminate.
Qed.
Lemma order_binds (args : list (arg V)) vals : params <> [] -> NoDup params -> (order_args params args = Ok vals <-> binds params args vals).
Proof.
  intros NE ND. rewrite order_eq by exact NE. split.
  - intros H. destruct (decide (length params < length args)) as [LA|LA]; [discriminate H|]. destruct (place params _ 0 false args) as [s| |] eqn:EP; [|discriminate H|discriminate H]. cbn [obind] in H.
    destruct (place_split _ _ _ _ EP) as (pos & named & SP). apply finish_ok in H as [k ->]. exists pos, named. split; [exact SP|].
    unfold split_args in SP. subst args. pose proof (place_pos pos [] (length params) (map (fun e => nm e) named) eq_refl) as PP. cbn [map app length Nat.add] in PP. rewrite PP in EP. clear PP.
    destruct (decide (length pos <= length params)) as [LP|LP]; [|discriminate EP]. rewrite place_named_false in EP.
    apply place_named in EP as (N & L & A & B); [|exact ND|rewrite app_length, map_length, replicate_length; lia].
    rewrite !app_length, !map_length, !replicate_length in L. split; [lia|].
    assert (B' : forall i, i < length pos -> (map Some vals ++ replicate k None) !! i = Some <$> pos !! i).
    { intros i Hi. destruct (lookup_lt_is_Some_2 params i ltac:(lia)) as [n Hn]. rewrite (B i n Hn); [rewrite slots_lookup, decide_True by exact Hi; reflexivity|].
      intros X. apply elem_of_list_In, in_map_iff in X as ([n' v'] & En & X). cbn in En. subst n'. apply elem_of_list_In in X. destruct (A n v' X) as (j & J1 & J2 & _).
      pose proof (NoDup_lookup _ _ _ _ ND J1 Hn) as ->. rewrite slots_lookup, decide_True in J2 by exact Hi. destruct (pos !! i); discriminate J2. }
    split; [|split; [exact N|]].
    + exists (drop (length pos) vals). rewrite <- (take_drop (length pos) vals) at 1. f_equal. apply list_eq. intros i.
      destruct (decide (i < length pos)) as [Li|Li].
      * rewrite lookup_take by exact Li. specialize (B' i Li). destruct (lookup_lt_is_Some_2 pos i Li) as [v Hv]. rewrite Hv in B' |- *. apply slots_value in B'. exact B'.
      * rewrite lookup_take_ge by lia. symmetry. apply lookup_ge_None_2. lia.
    + intros n v. split.
      * intros X. destruct (A n v X) as (i & I1 & I2 & I3). exists i. split.
        -- rewrite slots_lookup in I2. destruct (decide (i < length pos)); [destruct (pos !! i); discriminate I2|lia].
        -- split; [exact I1|]. apply slots_value in I3. exact I3.
      * intros (i & I1 & I2 & I3). apply slots_value with (k := k) in I3.
        destruct (decide (n ∈ map fst named)) as [X|X].
        -- apply elem_of_list_In, in_map_iff in X as ([n' v'] & En & X). cbn in En. subst n'. apply elem_of_list_In in X. destruct (A n v' X) as (j & J1 & _ & J3).
           pose proof (NoDup_lookup _ _ _ _ ND J1 I2) as ->. assert (v = v') as -> by congruence. exact X.
        -- rewrite (B i n I2 X) in I3. rewrite slots_lookup, decide_False in I3 by lia. destruct (decide _) in I3; discriminate I3.
  - intros (pos & named & SP & LV & (rest & ->) & N & A). unfold split_args in SP. subst args. rewrite app_length in LV.
    assert (LN : length named <= length rest).
    { rewrite <- (map_length fst named). assert (S : map fst named ⊆ drop (length pos) (take (length pos + length rest) params)).
      { intros n X. apply elem_of_list_In, in_map_iff in X as ([n' v'] & En & X). cbn in En. subst n'. apply elem_of_list_In in X. apply A in X as (i & I1 & I2 & I3).
        apply lookup_lt_Some in I3. rewrite app_length in I3. apply elem_of_list_lookup. exists (i - length pos). rewrite lookup_drop, lookup_take by lia. rewrite <- I2. f_equal. lia. }
      apply submseteq_length in S || (pose proof (NoDup_submseteq _ _ N S) as S'; apply submseteq_length in S').
      rewrite drop_length, take_length in S'. lia. }
    rewrite decide_False by (rewrite app_length, !map_length; lia).
    pose proof (place_pos pos [] (length params) (map (fun e => nm e) named) eq_refl) as PP. cbn [map app length Nat.add] in PP. rewrite PP. clear PP. rewrite decide_True by lia.
    rewrite place_named_false.
    assert (LS : length (map Some pos ++ replicate (length params - length pos) (@None V)) = length params) by (rewrite app_length, map_length, replicate_length; lia).
    destruct (place_named_total named (map Some pos ++ replicate (length params - length pos) None) (length pos) ND LS N) as [s' E].
    { intros n v X. apply A in X as (i & I1 & I2 & I3). exists i. split; [exact I2|]. rewrite slots_lookup, decide_False by lia. rewrite decide_True; [reflexivity|]. apply lookup_lt_Some in I2. lia. }
    rewrite E. cbn [obind]. apply finish_ok. exists (length params - length (pos ++ rest)).
    apply place_named in E as (_ & L' & A' & B'); [|exact ND|exact LS].
    apply list_eq. intros i. destruct (decide (i < length params)) as [Li|Li].
    + destruct (lookup_lt_is_Some_2 params i Li) as [n Hn]. rewrite slots_lookup, app_length. destruct (decide (i < length pos + length rest)) as [Lv|Lv].
      * destruct (lookup_lt_is_Some_2 (pos ++ rest) i ltac:(rewrite app_length; exact Lv)) as [v Hv]. rewrite Hv. cbn. destruct (decide (length pos <= i)) as [G|G].
        -- assert (X : (n, v) ∈ named) by (apply A; exists i; repeat split; assumption). destruct (A' n v X) as (j & J1 & _ & J3). pose proof (NoDup_lookup _ _ _ _ ND J1 Hn) as ->. exact J3.
        -- assert (X : n ∉ map fst named).
           { intros X. apply elem_of_list_In, in_map_iff in X as ([n' v'] & En & X). cbn in En. subst n'. apply elem_of_list_In in X. apply A in X as (j & J0 & J1 & _). pose proof (NoDup_lookup _ _ _ _ ND J1 Hn) as ->. lia. }
           rewrite (B' i n Hn X), slots_lookup, decide_True by lia. rewrite lookup_app_l in Hv by lia. rewrite Hv. reflexivity.
      * assert (X : n ∉ map fst named).
        { intros X. apply elem_of_list_In, in_map_iff in X as ([n' v'] & En & X). cbn in En. subst n'. apply elem_of_list_In in X. apply A in X as (j & J0 & J1 & J2). pose proof (NoDup_lookup _ _ _ _ ND J1 Hn) as ->. apply lookup_lt_Some in J2. rewrite app_length in J2. lia. }
        rewrite (B' i n Hn X), slots_lookup, decide_False by lia. rewrite !decide_True by lia. reflexivity.
    + rewrite (lookup_ge_None_2 s' i) by lia. rewrite slots_lookup, app_length. rewrite !decide_False by lia. reflexivity.
Qed.
End order.

(** * User-defined functions *)
Lemma compatible_passes a p : compatible a p = true <-> passes a p.
Proof.
  unfold compatible. rewrite !orb_true_iff, !bool_decide_eq_true. split.
  - intros [[[->| ->]| ->]|H]; try constructor. destruct a as [| |[a|]|], p as [| |[p|]|]; try discriminate H; constructor.
  - intros H. inversion H as [| | |p0|a0]; subst; try tauto; right; destruct a0; reflexivity.
Qed.
Lemma compatible_all_spec args : forall ps, compatible_all args ps = true <-> Forall2 (fun v p => passes (snd v) (snd p)) args ps.
Proof.
  induction args as [|a args IH]; intros [|p ps]; cbn [compatible_all].
  - split; [constructor|reflexivity].
  - split; [discriminate|intros H; inversion H].
  - split; [discriminate|intros H; inversion H].
  - rewrite andb_true_iff, compatible_passes, IH. split; [intros [A B]; constructor; assumption|intros H; inversion H; split; assumption].
Qed.
Lemma find_udf_spec us args :
  match find_udf us args with
  | Some u => exists us1 us2, us = us1 ++ u :: us2 /\ accepts u args /\ forall u', u' ∈ us1 -> ~ accepts u' args
  | None => forall u, u ∈ us -> ~ accepts u args
  end.
Proof.
  induction us as [|u us IH]; cbn [find_udf]; [intros u H; apply elem_of_nil in H as []|].
  destruct (compatible_all args (u_params u)) eqn:E.
  - apply compatible_all_spec in E. exists [], us. split; [reflexivity|]. split; [exact E|]. intros u' H. apply elem_of_nil in H as [].
  - assert (N : ~ accepts u args) by (intros X; apply compatible_all_spec in X; congruence). destruct (find_udf us args) as [u0|].
    + destruct IH as (us1 & us2 & -> & A & B). exists (u :: us1), us2. split; [reflexivity|]. split; [exact A|]. intros u' H. apply elem_of_cons in H as [->|H]; [exact N|apply B, H].
    + intros u' H. apply elem_of_cons in H as [->|H]; [exact N|apply IH, H].
Qed.
Lemma overloads_split us f : forall o1 u o2, overloads us f = o1 ++ u :: o2 -> exists us1 us2, us = us1 ++ u :: us2 /\ overloads us1 f = o1 /\ u_name u = f.
Proof.
  unfold overloads. induction us as [|x us IH]; intros o1 u o2 H; [destruct o1; discriminate H|]. rewrite filter_cons in H. destruct (decide (u_name x = f)) as [E|E].
  - destruct o1 as [|y o1]; cbn [app] in H; injection H as -> H.
    + exists [], us. split; [reflexivity|]. split; [reflexivity|exact E].
    + destruct (IH o1 u o2 H) as (us1 & us2 & -> & H1 & H2). exists (y :: us1), us2. split; [reflexivity|]. split; [|exact H2]. rewrite filter_cons, decide_True by exact E. rewrite H1. reflexivity.
  - destruct (IH o1 u o2 H) as (us1 & us2 & -> & H1 & H2). exists (x :: us1), us2. split; [reflexivity|]. split; [|exact H2]. rewrite filter_cons, decide_False by exact E. exact H1.
Qed.
Lemma find_overload us f args :
  match find_udf (overloads us f) args with
  | Some u => first_accepting us f args u
  | None => forall u, u ∈ us -> u_name u = f -> ~ accepts u args
  end.
Proof.
  pose proof (find_udf_spec (overloads us f) args) as F. destruct (find_udf (overloads us f) args) as [u|].
  - destruct F as (o1 & o2 & E & A & B). destruct (overloads_split us f o1 u o2 E) as (us1 & us2 & -> & H1 & H2). exists us1, us2. split; [reflexivity|]. split; [exact H2|]. split; [exact A|].
    intros u' Hu Hn. apply B. rewrite <- H1. apply elem_of_list_filter. split; assumption.
  - intros u Hu Hn. apply F. apply elem_of_list_filter. split; assumption.
Qed.
Lemma first_accepting_det us f args u u' : first_accepting us f args u -> first_accepting us f args u' -> u = u'.
Proof.
  intros (a1 & a2 & -> & N & A & B) (b1 & b2 & E & N' & A' & B'). apply app_eq_app in E as (m & [[-> E]|[-> E]]); destruct m as [|x m]; cbn [app] in E.
  - injection E; congruence.
  - injection E as <- _. exfalso. apply (B u'); [rewrite elem_of_app, elem_of_cons; tauto|exact N'|exact A'].
  - injection E; congruence.
  - injection E as <- _. exfalso. apply (B' u); [rewrite elem_of_app, elem_of_cons; tauto|exact N|exact A].
Qed.

(** Parameter names of the overloads with [n] parameters that have them. *)
Lemma udf_names_some us n : forall ns, udf_names us n (Some ns) = if decide (Forall (fun u => length (u_params u) = n -> u_stored u = true -> map fst (u_params u) = ns) us) then Ok (Some ns) else Throw.
Proof.
  induction us as [|u us IH]; intros ns; cbn [udf_names]; [rewrite decide_True by constructor; reflexivity|]. destruct (decide (length (u_params u) <> n)) as [L|L].
  - rewrite IH. apply decide_ext. rewrite Forall_cons. tauto.
  - destruct (u_stored u) eqn:S.
    + destruct (decide (ns <> map fst (u_params u))) as [D|D].
      * rewrite decide_False; [reflexivity|]. rewrite Forall_cons. intros [X _]. apply D. symmetry. apply X; [|exact S]. destruct (decide (length (u_params u) = n)); [assumption|contradiction].
      * rewrite IH. apply decide_ext. rewrite Forall_cons. destruct (decide (ns = map fst (u_params u))) as [->|]; [|contradiction]. tauto.
    + rewrite IH. apply decide_ext. rewrite Forall_cons, S. split; [intros H; split; [discriminate|exact H]|tauto].
Qed.
