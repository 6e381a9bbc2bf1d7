(** Property C18: data objects are destroyed exactly once, when the last reference goes away. *)
From stdpp Require Import base numbers gmap list list_numbers.
From Coq Require Import Lia.
From Verif Require Import CppBase RefCountModel RefCountSpec.

(** ** Counting *)
Fixpoint cnt (i : nat) (l : list nat) : nat := match l with [] => 0 | j :: l' => (if decide (j = i) then 1 else 0) + cnt i l' end.
Lemma cnt_app i l1 l2 : cnt i (l1 ++ l2) = cnt i l1 + cnt i l2.
Proof. induction l1 as [|j l1 IH]; cbn [app cnt]; [done|]. rewrite IH. lia. Qed.
Lemma cnt_pos i l : 0 < cnt i l <-> i ∈ l.
Proof.
  induction l as [|j l IH]; cbn [cnt]; [split; [lia|by intros ?%elem_of_nil]|]. rewrite elem_of_cons. destruct (decide (j = i)); [naive_solver lia|]. rewrite <- IH.
  split; [intros; right; lia|intros [?|?]; [congruence|lia]].
Qed.
Lemma cnt_delete i l k e : l !! k = Some e -> cnt i l = (if decide (e = i) then 1 else 0) + cnt i (delete k l).
Proof.
  intros H. rewrite <- (take_drop_middle l k e H) at 1. rewrite delete_take_drop, !cnt_app. cbn [cnt]. lia.
Qed.
Definition is_dec (i : nat) (a : act) : nat := match a with ADec j => if decide (j = i) then 1 else 0 | ADel _ => 0 end.
Definition is_del (i : nat) (a : act) : nat := match a with ADel j => if decide (j = i) then 1 else 0 | ADec _ => 0 end.
Fixpoint decs (i : nat) (p : list act) : nat := match p with [] => 0 | a :: p' => is_dec i a + decs i p' end.
Fixpoint dels (i : nat) (p : list act) : nat := match p with [] => 0 | a :: p' => is_del i a + dels i p' end.
Lemma decs_app i p1 p2 : decs i (p1 ++ p2) = decs i p1 + decs i p2.
Proof. induction p1 as [|a p1 IH]; cbn [app decs]; [done|]. rewrite IH. lia. Qed.
Lemma dels_app i p1 p2 : dels i (p1 ++ p2) = dels i p1 + dels i p2.
Proof. induction p1 as [|a p1 IH]; cbn [app dels]; [done|]. rewrite IH. lia. Qed.
Lemma decs_delete i p k a : p !! k = Some a -> decs i p = is_dec i a + decs i (delete k p).
Proof. intros H. rewrite <- (take_drop_middle p k a H) at 1. rewrite delete_take_drop, !decs_app. cbn [decs]. lia. Qed.
Lemma dels_delete i p k a : p !! k = Some a -> dels i p = is_del i a + dels i (delete k p).
Proof. intros H. rewrite <- (take_drop_middle p k a H) at 1. rewrite delete_take_drop, !dels_app. cbn [dels]. lia. Qed.
Lemma decs_fmap i l : decs i (ADec <$> l) = cnt i l.
Proof. induction l as [|j l IH]; [done|]. rewrite fmap_cons. cbn [decs cnt is_dec]. by rewrite IH. Qed.
Lemma dels_fmap i l : dels i (ADec <$> l) = 0.
Proof. induction l as [|j l IH]; [done|]. rewrite fmap_cons. cbn [dels is_del]. by rewrite IH. Qed.

Lemma fold_delete (g : obj -> nat) (h : gmap nat obj) k o : h !! k = Some o ->
  map_fold (fun _ o n => g o + n) 0 h = g o + map_fold (fun _ o n => g o + n) 0 (delete k h).
Proof.
  intros H. rewrite <- (insert_delete h k o H) at 1. rewrite (map_fold_insert_L (fun _ o n => g o + n)); [done| |apply lookup_delete]. intros. lia.
Qed.
(** Occurrences of i in the lists of the heap. *)
Definition occ (h : gmap nat obj) (i : nat) : nat := map_fold (fun _ o n => cnt i (o_elems o) + n) 0 h.
Lemma occ_delete h k o i : h !! k = Some o -> occ h i = cnt i (o_elems o) + occ (delete k h) i.
Proof. intros H. unfold occ. by apply (fold_delete (fun o => cnt i (o_elems o))). Qed.
Lemma occ_empty i : occ ∅ i = 0.
Proof. unfold occ. by rewrite map_fold_empty. Qed.
Lemma occ_insert_None h k o i : h !! k = None -> occ (<[k := o]> h) i = cnt i (o_elems o) + occ h i.
Proof. intros H. rewrite (occ_delete _ k o) by apply lookup_insert. by rewrite delete_insert. Qed.
Lemma occ_insert_Some h k o o' i : h !! k = Some o -> occ (<[k := o']> h) i + cnt i (o_elems o) = cnt i (o_elems o') + occ h i.
Proof. intros H. rewrite (occ_delete _ k o') by apply lookup_insert. rewrite (occ_delete h k o) by done. rewrite delete_insert_delete. lia. Qed.
Lemma occ_pos h i : 0 < occ h i -> exists l o, h !! l = Some o /\ i ∈ o_elems o.
Proof.
  induction h as [|k o h Hk IH] using map_ind; [rewrite occ_empty; lia|]. rewrite occ_insert_None by done. intros H.
  destruct (decide (0 < cnt i (o_elems o))) as [Hc|Hc].
  - exists k, o. rewrite lookup_insert. split; [done|]. by apply cnt_pos.
  - destruct IH as (l & o' & Hl & Hi); [lia|]. exists l, o'. split; [|done]. rewrite lookup_insert_ne; [done|]. intros ->. congruence.
Qed.
Lemma occ_elem h l o i : h !! l = Some o -> i ∈ o_elems o -> 0 < occ h i.
Proof. intros H Hi. rewrite (occ_delete h l o) by done. apply cnt_pos in Hi. lia. Qed.

(** ** The invariant *)
Definition total (s : rstate) (p : refspec) (i : nat) : nat := held p i + occ (r_heap s) i + decs i (r_pend s).
Definition inv (s : rstate) (p : refspec) : Prop :=
  forall i, match r_heap s !! i with
            | Some o => o_rc o = total s p i /\ dels i (r_pend s) = (if decide (o_rc o = 0) then 1 else 0) /\ o_elems o = cont p i /\
                        forall e, e ∈ o_elems o -> level p i = level p e + 1
            | None => total s p i = 0 /\ dels i (r_pend s) = 0
            end.

Lemma inv_init : inv r_init spec_init.
Proof. intros i. cbn. rewrite lookup_empty. unfold total. cbn. by rewrite occ_empty. Qed.

(** Everything that is referred to is in the heap. *)
Lemma inv_live s p i : inv s p -> 0 < total s p i -> exists o, r_heap s !! i = Some o /\ 0 < o_rc o /\ o_elems o = cont p i.
Proof.
  intros Hi Ht. specialize (Hi i). destruct (r_heap s !! i) as [o|]; [|lia]. exists o. split; [done|]. split; [lia|]. apply Hi.
Qed.

Lemma rc_inc_Ok h i o : h !! i = Some o -> rc_inc h i = Ok (<[i := mkObj (o_rc o + 1) (o_elems o)]> h).
Proof. intros H. unfold rc_inc. by rewrite H. Qed.
Lemma rc_incs_spec l : forall h, (forall i, i ∈ l -> is_Some (h !! i)) ->
  exists h', rc_incs h l = Ok h' /\ forall i, h' !! i = (fun o => mkObj (o_rc o + cnt i l) (o_elems o)) <$> h !! i.
Proof.
  induction l as [|j l IH]; intros h H.
  { exists h. split; [done|]. intros i. destruct (h !! i) as [[rc el]|]; [|done]. cbn. f_equal. f_equal. lia. }
  destruct (H j) as [o Ho]; [left|]. cbn [rc_incs]. rewrite (rc_inc_Ok h j o Ho). cbn [obind].
  destruct (IH (<[j := mkObj (o_rc o + 1) (o_elems o)]> h)) as (h' & E & Hh).
  { intros i Hi. destruct (decide (j = i)) as [->|Hne]; [by rewrite lookup_insert|]. rewrite lookup_insert_ne by done. apply H. by right. }
  exists h'. split; [exact E|]. intros i. rewrite Hh. cbn [cnt]. destruct (decide (j = i)) as [->|Hne].
  - rewrite lookup_insert, Ho. cbn. f_equal. f_equal. lia.
  - rewrite lookup_insert_ne by done. done.
Qed.
Lemma occ_rc (g : nat -> nat) h h' i : (forall j, h' !! j = (fun o => mkObj (o_rc o + g j) (o_elems o)) <$> h !! j) -> occ h' i = occ h i.
Proof.
  revert h'. induction h as [|k o h Hk IH] using map_ind; intros h' H.
  - assert (h' = ∅) as ->; [|done]. apply map_eq. intros j. by rewrite H, !lookup_empty.
  - rewrite occ_insert_None by done. assert (Hk' : h' !! k = Some (mkObj (o_rc o + g k) (o_elems o))) by (rewrite H, lookup_insert; done).
    rewrite (occ_delete h' k _ i Hk'). cbn [o_elems]. f_equal. apply IH. intros j. destruct (decide (k = j)) as [->|Hne].
    + by rewrite lookup_delete, Hk.
    + rewrite lookup_delete_ne by done. rewrite H. by rewrite lookup_insert_ne by done.
Qed.

Ltac kk := repeat (first [rewrite lookup_insert | rewrite lookup_insert_ne by done]).

Lemma inv_step s p e : inv s p -> allowed p e -> allocates_free s e -> exists s', r_step s e = Ok s' /\ inv s' (spec_step p e).
Proof.
  intros Hi Ha Hf. destruct e as [i lv|i|i|l e|l k|l i|k]; cbn [allowed allocates_free] in Ha, Hf; cbn [r_step].
  - eexists. split; [done|]. pose proof (Hi i) as Hii. rewrite Hf in Hii. unfold total in Hii. intros j. cbn [r_heap r_pend spec_step]. unfold total. cbn [r_heap r_pend held cont level].
    rewrite occ_insert_None by done. cbn [o_elems cnt]. destruct (decide (j = i)) as [->|Hne].
    + rewrite lookup_insert. cbn [o_rc o_elems]. split; [unfold upd; rewrite decide_True by done; lia|]. split; [rewrite decide_False by lia; lia|].
      split; [unfold upd; by rewrite decide_True|]. intros e He. by apply elem_of_nil in He.
    + rewrite lookup_insert_ne by done. specialize (Hi j). unfold total in Hi. destruct (r_heap s !! j) as [o|] eqn:Ej.
      * destruct Hi as (H1 & H2 & H3 & H4). split; [unfold upd; rewrite decide_False by done; lia|]. split; [done|]. split; [unfold upd; by rewrite decide_False by done|].
        intros e He. unfold upd. rewrite (decide_False (P := j = i)) by done. destruct (decide (e = i)) as [->|]; [|by apply H4].
        exfalso. pose proof (occ_elem _ _ _ _ Ej He). lia.
      * unfold upd. rewrite decide_False by done. lia.
  - destruct (inv_live s p i Hi) as (o & Ho & Hrc & Hel); [unfold total; lia|]. rewrite (rc_inc_Ok _ _ o) by done. cbn [obind]. eexists. split; [done|].
    intros j. cbn [r_heap r_pend spec_step]. unfold total. cbn [r_heap r_pend held cont level].
    pose proof (occ_insert_Some (r_heap s) i o (mkObj (o_rc o + 1) (o_elems o)) j Ho) as Hoc. cbn [o_elems] in Hoc.
    specialize (Hi j). unfold total in Hi. unfold upd. destruct (decide (j = i)) as [->|Hne].
    + rewrite lookup_insert. cbn [o_rc o_elems]. rewrite Ho in Hi. rewrite decide_False in Hi by lia. rewrite decide_False by lia. naive_solver lia.
    + rewrite lookup_insert_ne by done. destruct (r_heap s !! j) as [oj|]; naive_solver lia.
  - destruct (inv_live s p i Hi) as (o & Ho & Hrc & Hel); [unfold total; lia|]. eexists. split; [done|].
    intros j. cbn [r_heap r_pend spec_step]. unfold total. cbn [r_heap r_pend held cont level decs dels is_dec is_del].
    specialize (Hi j). unfold total in Hi. unfold upd. destruct (decide (i = j)) as [->|Hne].
    + rewrite (decide_True (P := j = j)) by done. rewrite Ho in Hi |- *. naive_solver lia.
    + rewrite (decide_False (P := j = i)) by congruence. destruct (r_heap s !! j); naive_solver lia.
  - destruct Ha as (Hl & He & Hlv). destruct (inv_live s p l Hi) as (ol & Hol & Hrcl & Hell); [unfold total; lia|].
    destruct (inv_live s p e Hi) as (oe & Hoe & Hrce & Hele); [unfold total; lia|].
    assert (Hne : l <> e) by (intros ->; lia).
    rewrite (rc_inc_Ok _ _ oe) by done. cbn [obind]. rewrite lookup_insert_ne by done. rewrite Hol. eexists. split; [done|].
    intros j. cbn [r_heap r_pend spec_step]. unfold total. cbn [r_heap r_pend held cont level].
    pose proof (occ_insert_Some (<[e := mkObj (o_rc oe + 1) (o_elems oe)]> (r_heap s)) l ol (mkObj (o_rc ol) (o_elems ol ++ [e])) j) as Hoc.
    rewrite lookup_insert_ne in Hoc by done. specialize (Hoc Hol).
    pose proof (occ_insert_Some (r_heap s) e oe (mkObj (o_rc oe + 1) (o_elems oe)) j Hoe) as Hoc2. cbn [o_elems] in Hoc, Hoc2. rewrite cnt_app in Hoc. cbn [cnt] in Hoc.
    specialize (Hi j). unfold total in Hi. unfold upd. destruct (decide (j = l)) as [->|Hjl].
    + rewrite lookup_insert. cbn [o_rc o_elems]. rewrite Hol in Hi. rewrite (decide_False (P := e = l)) in Hoc by congruence. destruct Hi as (H1 & H2 & H3 & H4).
      split; [lia|]. split; [done|]. split; [congruence|]. intros x. rewrite elem_of_app, elem_of_list_singleton. intros [Hx| ->]; [by apply H4|done].
    + rewrite lookup_insert_ne by done. destruct (decide (e = j)) as [->|Hej].
      * rewrite lookup_insert. rewrite Hoe in Hi. cbn [o_rc o_elems]. rewrite decide_False in Hi by lia. rewrite decide_False by lia. naive_solver lia.
      * rewrite lookup_insert_ne by done. destruct (r_heap s !! j); naive_solver lia.
  - destruct Ha as (Hl & Hk). destruct (inv_live s p l Hi) as (ol & Hol & Hrcl & Hell); [unfold total; lia|]. rewrite Hol. rewrite decide_True by (rewrite Hell; done).
    eexists. split; [done|]. destruct (lookup_lt_is_Some_2 _ _ Hk) as [e He]. cbn [spec_step]. rewrite He.
    pose proof He as He'. rewrite <- Hell in He'.
    intros j. unfold total. cbn [r_heap r_pend held cont level].
    pose proof (occ_insert_Some (r_heap s) l ol (mkObj (o_rc ol) (delete k (o_elems ol))) j Hol) as Hoc. cbn [o_elems] in Hoc.
    pose proof (cnt_delete j _ _ _ He') as Hcd.
    assert (Hsum : upd (held p) e (held p e + 1) j + occ (<[l := mkObj (o_rc ol) (delete k (o_elems ol))]> (r_heap s)) j = held p j + occ (r_heap s) j).
    { unfold upd. destruct (decide (j = e)) as [->|Hje]; [rewrite decide_True in Hcd by done; lia|rewrite decide_False in Hcd by congruence; lia]. }
    specialize (Hi j). unfold total in Hi. destruct (decide (j = l)) as [->|Hjl].
    + rewrite lookup_insert. cbn [o_rc o_elems]. rewrite Hol in Hi. destruct Hi as (H1 & H2 & H3 & H4). split; [lia|]. split; [done|].
      split; [unfold upd; rewrite decide_True by done; congruence|]. intros x Hx. apply H4.
      rewrite delete_take_drop in Hx. rewrite <- (take_drop_middle _ _ _ He'). apply elem_of_app in Hx as [Hx|Hx]; apply elem_of_app; [by left|by right; right].
    + rewrite lookup_insert_ne by done. unfold upd at 2. rewrite (decide_False (P := j = l)) by done. destruct (r_heap s !! j); naive_solver lia.
  - destruct (inv_live s p l Hi) as (ol & Hol & Hrcl & Hell); [unfold total; lia|]. rewrite Hol.
    destruct (rc_incs_spec (o_elems ol) (r_heap s)) as (h' & E & Hh).
    { intros e He. pose proof (occ_elem _ _ _ _ Hol He). destruct (inv_live s p e Hi) as (oe & Hoe & _); [unfold total; lia|]. by rewrite Hoe. }
    rewrite E. cbn [obind]. eexists. split; [done|]. intros j. cbn [r_heap r_pend spec_step]. unfold total. cbn [r_heap r_pend held cont level].
    assert (Hfi : h' !! i = None) by (rewrite Hh, Hf; done). rewrite (occ_insert_None h' i) by done. cbn [o_elems].
    rewrite (occ_rc (fun j => cnt j (o_elems ol)) (r_heap s) h' j Hh).
    pose proof (Hi i) as Hii. rewrite Hf in Hii. unfold total in Hii.
    assert (Hil : i <> l) by (intros ->; congruence).
    assert (Hocc : forall o' e, e ∈ o_elems o' -> forall x, r_heap s !! x = Some o' -> e <> i).
    { intros o' e He x Hx ->. pose proof (occ_elem _ _ _ _ Hx He). lia. }
    destruct (decide (j = i)) as [->|Hne].
    + rewrite lookup_insert. cbn [o_rc o_elems]. assert (cnt i (o_elems ol) = 0). { destruct (decide (cnt i (o_elems ol) = 0)); [done|]. exfalso.
      apply (Hocc ol i) with l; [apply cnt_pos; lia|done|done]. }
      split; [unfold upd; rewrite decide_True by done; lia|]. split; [rewrite decide_False by lia; lia|]. split; [unfold upd; rewrite decide_True by done; done|].
      intros e He. unfold upd. rewrite (decide_True (P := i = i)) by done. rewrite decide_False by (by apply (Hocc ol e) with l).
      specialize (Hi l). rewrite Hol in Hi. by apply Hi.
    + rewrite lookup_insert_ne by done. rewrite Hh. specialize (Hi j). unfold total in Hi. unfold upd. rewrite !(decide_False (P := j = i)) by done.
      destruct (r_heap s !! j) as [oj|] eqn:Ej; cbn [fmap option_fmap option_map].
      * cbn [o_rc o_elems]. destruct Hi as (H1 & H2 & H3 & H4). split; [lia|]. split.
        -- rewrite H2. destruct (decide (o_rc oj = 0)) as [H0|H0].
           ++ rewrite decide_True; [done|]. assert (cnt j (o_elems ol) = 0); [|lia]. destruct (decide (cnt j (o_elems ol) = 0)); [done|].
              assert (j ∈ o_elems ol) as Hj by (apply cnt_pos; lia). pose proof (occ_elem _ _ _ _ Hol Hj). lia.
           ++ rewrite decide_False by lia. done.
        -- split; [done|]. intros e He. rewrite decide_False by (by apply (Hocc oj e) with j). by apply H4.
      * assert (cnt j (o_elems ol) = 0); [|lia]. destruct (decide (cnt j (o_elems ol) = 0)); [done|].
        assert (j ∈ o_elems ol) as Hj by (apply cnt_pos; lia). pose proof (occ_elem _ _ _ _ Hol Hj). lia.
  - destruct (r_pend s !! k) as [[i|i]|] eqn:Ek; [| |by exists s].
    + assert (Hdi : forall j, decs j (r_pend s) = is_dec j (ADec i) + decs j (delete k (r_pend s))) by (intros; by apply decs_delete).
      assert (Hdl : forall j, dels j (r_pend s) = dels j (delete k (r_pend s))) by (intros; by rewrite (dels_delete j _ _ _ Ek)).
      destruct (inv_live s p i Hi) as (o & Ho & Hrc & Hel). { unfold total. rewrite (Hdi i). cbn [is_dec]. rewrite decide_True by done. lia. }
      unfold rc_dec. cbn [r_heap r_pend]. rewrite Ho. rewrite (decide_False (P := o_rc o = 0)) by lia.
      assert (Hoc : forall j, occ (<[i := mkObj (o_rc o - 1) (o_elems o)]> (r_heap s)) j = occ (r_heap s) j).
      { intros j. pose proof (occ_insert_Some (r_heap s) i o (mkObj (o_rc o - 1) (o_elems o)) j Ho) as H. cbn [o_elems] in H. lia. }
      destruct (decide (o_rc o - 1 = 0)) as [H0|H0]; (eexists; split; [done|]); intros j; cbn [r_heap r_pend spec_step]; unfold total; cbn [r_heap r_pend decs dels is_dec is_del];
        rewrite Hoc; specialize (Hi j); unfold total in Hi; rewrite (Hdi j), (Hdl j) in Hi; cbn [is_dec] in Hi; destruct (decide (i = j)) as [->|Hne];
        (rewrite lookup_insert || rewrite lookup_insert_ne by done); try rewrite Ho in Hi; cbn [o_rc o_elems].
      * rewrite decide_False in Hi by lia. rewrite decide_True by done. naive_solver lia.
      * destruct (r_heap s !! j); naive_solver lia.
      * rewrite decide_False in Hi by lia. rewrite decide_False by done. naive_solver lia.
      * destruct (r_heap s !! j); naive_solver lia.
    + assert (Hdi : forall j, decs j (r_pend s) = decs j (delete k (r_pend s))) by (intros; by rewrite (decs_delete j _ _ _ Ek)).
      assert (Hdl : forall j, dels j (r_pend s) = is_del j (ADel i) + dels j (delete k (r_pend s))) by (intros; by apply dels_delete).
      pose proof (Hi i) as Hii. rewrite (Hdl i) in Hii. cbn [is_del] in Hii. rewrite (decide_True (P := i = i)) in Hii by done.
      unfold rc_del. cbn [r_heap r_pend]. destruct (r_heap s !! i) as [o|] eqn:Ho; [|lia]. eexists. split; [done|].
      assert (Hrc : o_rc o = 0) by (destruct (decide (o_rc o = 0)); lia). unfold total in Hii. rewrite (decide_True (P := o_rc o = 0)) in Hii by done.
      intros j. cbn [r_heap r_pend spec_step]. unfold total. cbn [r_heap r_pend]. rewrite decs_app, dels_app, decs_fmap, dels_fmap.
      pose proof (occ_delete (r_heap s) i o j Ho) as Hoc. specialize (Hi j). unfold total in Hi. rewrite (Hdi j), (Hdl j) in Hi. cbn [is_del] in Hi.
      destruct (decide (i = j)) as [->|Hne].
      * rewrite lookup_delete. rewrite Hdi in Hii. lia.
      * rewrite lookup_delete_ne by done. destruct (r_heap s !! j); naive_solver lia.
Qed.

Lemma reaches_inv s p : reaches s p -> inv s p.
Proof.
  induction 1 as [|s p e s' Hr IH Ha Hf E]; [apply inv_init|]. destruct (inv_step s p e IH Ha Hf) as (s'' & E' & H'). rewrite E in E'. by injection E' as <-.
Qed.

(** C18, safety: no access to a freed object ever happens: in every reachable state, whatever clients are allowed to do, and
    whatever step a thread executes next, succeeds (an access to an object that is not in the heap, a second deletion or a counter
    running below zero would be UB). *)
Theorem C18_no_use_after_free s p e : reaches s p -> allowed p e -> allocates_free s e -> exists s', r_step s e = Ok s'.
Proof. intros Hr Ha Hf. destruct (inv_step s p e (reaches_inv _ _ Hr) Ha Hf) as (s' & E & _). by exists s'. Qed.

(** C18: an object to which a client holds a reference, or that is contained in an existing list, exists. *)
Theorem C18_not_freed_early s p i : reaches s p ->
  (0 < held p i \/ exists l, is_Some (r_heap s !! l) /\ i ∈ cont p l) -> is_Some (r_heap s !! i).
Proof.
  intros Hr Hx. pose proof (reaches_inv _ _ Hr) as Hi. destruct (inv_live s p i Hi) as (o & Ho & _); [|by rewrite Ho].
  unfold total. destruct Hx as [Hh|(l & [ol Hol] & Hc)]; [lia|]. pose proof (Hi l) as Hl. rewrite Hol in Hl. destruct Hl as (_ & _ & Hel & _).
  rewrite <- Hel in Hc. pose proof (occ_elem _ _ _ _ Hol Hc). lia.
Qed.

(** C18: once no destruction is in progress, exactly the needed objects exist: nothing is leaked. *)
Theorem C18_exactly_needed_exist s p i : reaches s p -> r_pend s = [] -> (is_Some (r_heap s !! i) <-> needed p i).
Proof.
  intros Hr Hp. pose proof (reaches_inv _ _ Hr) as Hi. split.
  - assert (Hb : exists b, forall j, is_Some (r_heap s !! j) -> level p j < b).
    { clear. generalize (r_heap s). intros h. induction h as [|k o h Hk [b IH]] using map_ind; [exists 0; intros j [? Hj]; by rewrite lookup_empty in Hj|].
      exists (b + S (level p k)). intros j [oj Hj]. destruct (decide (k = j)) as [->|Hne]; [lia|]. rewrite lookup_insert_ne in Hj by done. specialize (IH j). rewrite Hj in IH. destruct IH; [done|lia|lia]. }
    destruct Hb as [b Hb]. remember (b - level p i) as n eqn:En. revert i En. induction n as [n IH] using lt_wf_ind. intros i En [o Ho].
    pose proof (Hi i) as Hii. rewrite Ho in Hii. unfold total in Hii. rewrite Hp in Hii. cbn [dels decs] in Hii. destruct Hii as (H1 & H2 & H3 & H4).
    destruct (decide (o_rc o = 0)); [lia|]. destruct (decide (held p i = 0)) as [H0|H0]; [|apply needed_held; lia].
    destruct (occ_pos (r_heap s) i) as (l & ol & Hl & Hel); [lia|]. pose proof (Hi l) as Hil. rewrite Hl in Hil. destruct Hil as (_ & _ & H3' & H4').
    apply needed_elem with l; [|by rewrite <- H3']. pose proof (H4' i Hel). assert (level p l < b) by (apply Hb; by rewrite Hl).
    apply (IH (b - level p l)); [lia|done|by rewrite Hl].
  - induction 1 as [i Hh|l i Hl IH Hc]; [apply (C18_not_freed_early s p); auto|]. apply (C18_not_freed_early s p); [done|]. right. by exists l.
Qed.

(** C18: destruction always finishes: from every state, at most a fixed number of pending steps can be executed (in any order). *)
Definition weight (o : obj) : nat := 1 + 2 * length (o_elems o).
Definition hweight (h : gmap nat obj) : nat := map_fold (fun _ o n => weight o + n) 0 h.
Lemma hweight_delete h k o : h !! k = Some o -> hweight h = weight o + hweight (delete k h).
Proof. intros H. unfold hweight. by apply (fold_delete weight). Qed.
Definition aweight (a : act) : nat := match a with ADec _ => 2 | ADel _ => 1 end.
Fixpoint pweight (p : list act) : nat := match p with [] => 0 | a :: p' => aweight a + pweight p' end.
Lemma pweight_app p1 p2 : pweight (p1 ++ p2) = pweight p1 + pweight p2.
Proof. induction p1 as [|a p1 IH]; cbn [app pweight]; [done|]. rewrite IH. lia. Qed.
Lemma pweight_delete p k a : p !! k = Some a -> pweight p = aweight a + pweight (delete k p).
Proof. intros H. rewrite <- (take_drop_middle p k a H) at 1. rewrite delete_take_drop, !pweight_app. cbn [pweight]. lia. Qed.
Lemma pweight_decs l : pweight (ADec <$> l) = 2 * length l.
Proof. induction l as [|j l IH]; [done|]. rewrite fmap_cons. cbn [pweight aweight length]. rewrite IH. lia. Qed.
Definition work (s : rstate) : nat := pweight (r_pend s) + hweight (r_heap s).
Lemma exec_decreases s k s' : k < length (r_pend s) -> r_step s (EExec k) = Ok s' -> work s' < work s.
Proof.
  intros Hk. cbn [r_step]. destruct (lookup_lt_is_Some_2 _ _ Hk) as [a Ha]. rewrite Ha. pose proof (pweight_delete _ _ _ Ha) as Hp. unfold work.
  destruct a as [i|i]; cbn [aweight] in Hp.
  - unfold rc_dec. cbn [r_heap r_pend]. destruct (r_heap s !! i) as [o|] eqn:Ho; [|done].
    assert (Hh : forall o', o_elems o' = o_elems o -> hweight (<[i := o']> (r_heap s)) = hweight (r_heap s)).
    { intros o' He. rewrite (hweight_delete _ i o') by apply lookup_insert. rewrite delete_insert_delete. rewrite (hweight_delete (r_heap s) i o) by done. unfold weight. by rewrite He. }
    destruct (decide (o_rc o = 0)); [done|]. destruct (decide (o_rc o - 1 = 0)); intros [= <-]; cbn [r_heap r_pend pweight aweight]; rewrite Hh by done; lia.
  - unfold rc_del. cbn [r_heap r_pend]. destruct (r_heap s !! i) as [o|] eqn:Ho; [|done]. intros [= <-]. cbn [r_heap r_pend].
    rewrite pweight_app, pweight_decs. rewrite (hweight_delete (r_heap s) i o) by done. unfold weight. lia.
Qed.
(** A run of pending steps, chosen by any scheduler. *)
Fixpoint runs (s : rstate) (ks : list nat) (s' : rstate) : Prop :=
  match ks with [] => s' = s | k :: ks' => k < length (r_pend s) /\ exists s1, r_step s (EExec k) = Ok s1 /\ runs s1 ks' s' end.
Theorem C18_destruction_terminates s : exists n, forall ks s', runs s ks s' -> length ks <= n.
Proof.
  exists (work s). intros ks. revert s. induction ks as [|k ks IH]; intros s s'; [simpl; lia|]. intros (Hk & s1 & E & Hr).
  specialize (IH s1 s' Hr). pose proof (exec_decreases s k s1 Hk E). cbn [length]. lia.
Qed.
Lemma runs_reaches ks : forall s p s', reaches s p -> runs s ks s' -> reaches s' p.
Proof.
  induction ks as [|k ks IH]; intros s p s' Hr; [by intros ->|]. intros (Hk & s1 & E & Hs). apply (IH s1); [|done].
  by apply (reaches_step s p (EExec k) s1).
Qed.
(** C18, put together: whatever order the threads execute the pending steps in, the destruction comes to an end, and then exactly
    the needed objects are left. *)
Theorem C18_freed_when_last_reference_gone s p : reaches s p ->
  (exists n, forall ks s', runs s ks s' -> length ks <= n) /\
  (forall ks s', runs s ks s' -> (forall k, k < length (r_pend s') -> exists s'', r_step s' (EExec k) = Ok s'')) /\
  (forall ks s', runs s ks s' -> r_pend s' = [] -> forall i, is_Some (r_heap s' !! i) <-> needed p i).
Proof.
  intros Hr. split; [apply C18_destruction_terminates|]. split.
  - intros ks s' Hs k Hk. apply (C18_no_use_after_free s' p); [by apply (runs_reaches ks s)|done|done].
  - intros ks s' Hs Hp i. apply C18_exactly_needed_exist; [by apply (runs_reaches ks s)|done].
Qed.

(** A concrete history: two matrices, a list holding both, a copy of the list; the clients give up everything but the copy and the
    first matrix is reclaimed from the list before. *)
Fixpoint run_events (s : rstate) (p : refspec) (es : list revent) : outcome (rstate * refspec) :=
  match es with [] => Ok (s, p) | e :: es' => let* s' := r_step s e in run_events s' (spec_step p e) es' end.
Fixpoint ok_events (s : rstate) (p : refspec) (es : list revent) : Prop :=
  match es with
  | [] => True
  | e :: es' => allowed p e /\ allocates_free s e /\ match r_step s e with Ok s' => ok_events s' (spec_step p e) es' | _ => False end
  end.
Lemma run_events_reaches es : forall s p s' p', reaches s p -> ok_events s p es -> run_events s p es = Ok (s', p') -> reaches s' p'.
Proof.
  induction es as [|e es IH]; intros s p s' p' Hr Hok; cbn [run_events ok_events] in *; [by intros [= <- <-]|].
  destruct Hok as (Ha & Hf & Hok). destruct (r_step s e) as [s1| |] eqn:E; [|done|done]. cbn [obind]. intros Hrun.
  apply (IH s1 (spec_step p e)); [|done|done]. by apply (reaches_step s p e s1).
Qed.
Example C18_example :
  let es := [ECreate 1 0; ECreate 2 0; ECreate 3 1; EAppend 3 1; EAppend 3 2; EAppend 3 1; ECopy 3 4; EDestroy 1; EDestroy 2; EExec 0;
     EDestroy 3; EExec 0; EExec 0; ERemove 4 0; EExec 0; EExec 0; EExec 0; EExec 0] in
  ok_events r_init spec_init es /\
  match run_events r_init spec_init es with
  | Ok (s, p) => r_pend s = [] /\ is_Some (r_heap s !! 1) /\ is_Some (r_heap s !! 2) /\ r_heap s !! 3 = None /\ is_Some (r_heap s !! 4) /\
      held p 1 = 1 /\ held p 4 = 1 /\ held p 2 = 0 /\ held p 3 = 0
  | _ => False
  end.
Proof. intros es. split; [vm_compute; repeat split; lia|]. vm_compute. repeat split; eauto. Qed.

Print Assumptions C18_no_use_after_free.
Print Assumptions C18_not_freed_early.
Print Assumptions C18_exactly_needed_exist.
Print Assumptions C18_freed_when_last_reference_gone.
