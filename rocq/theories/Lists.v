(** Property C92: lists are sequences of matrices. *)
From stdpp Require Import base numbers list.
From Coq Require Import Lia.
From Verif Require Import CppBase ListModel.

(** * Specification: values without memory *)
Inductive val (V : Type) := VMat (v : V) | VList (vs : list V).
Arguments VMat {V}. Arguments VList {V}.
(** A variable that has been given up has no value. *)
Record pstate (V : Type) := mkP { p_env : list (option (val V)); p_out : list (shown V) }.
Arguments mkP {V}. Arguments p_env {V}. Arguments p_out {V}.
Section Spec.
  Context {V : Type}.
  Definition pmat (s : pstate V) (x : nat) : outcome V := match p_env s !! x with Some (Some (VMat v)) => Ok v | _ => UB end.
  Definition plist (s : pstate V) (x : nat) : outcome (list V) := match p_env s !! x with Some (Some (VList vs)) => Ok vs | _ => UB end.
  Fixpoint pmats (s : pstate V) (xs : list nat) : outcome (list V) :=
    match xs with [] => Ok [] | x :: xs => let* v := pmat s x in let* vs := pmats s xs in Ok (v :: vs) end.
  Definition pstep (s : pstate V) (c : stmt V) : outcome (pstate V) :=
    match c with
    | SMat v => Ok (mkP (p_env s ++ [Some (VMat v)]) (p_out s))
    | SCreate xs => let* vs := pmats s xs in Ok (mkP (p_env s ++ [Some (VList vs)]) (p_out s))
    | SAppend x y => let* vs := plist s x in let* v := pmat s y in Ok (mkP (p_env s ++ [Some (VList (vs ++ [v]))]) (p_out s))
    | SRemove x idx => let* vs := plist s x in
        match vs !! idx with
        | Some v => Ok (mkP (p_env s ++ [Some (VList (delete idx vs)); Some (VMat v)]) (p_out s))
        | None => Throw
        end
    | SLength x => let* vs := plist s x in Ok (mkP (p_env s) (p_out s ++ [ShLength (length vs)]))
    | SPrint x => let* vs := plist s x in Ok (mkP (p_env s) (p_out s ++ [ShList vs]))
    | SShow x => let* v := pmat s x in Ok (mkP (p_env s) (p_out s ++ [ShMat v]))
    | SDec x => match p_env s !! x with Some (Some _) => Ok (mkP (<[x := None]> (p_env s)) (p_out s)) | _ => UB end
    end.
  Fixpoint prun (s : pstate V) (p : list (stmt V)) : outcome (pstate V) := match p with [] => Ok s | c :: p => let* s := pstep s c in prun s p end.
End Spec.

(** * Proof *)
Section Proofs.
  Context {V : Type}.
  Implicit Types (h : list (option (obj V))).
  Definition cnt (a : nat) (l : list nat) : nat := count_occ Nat.eq_dec l a.
  Definition oels (o : option (obj V)) : list nat := match o with Some (OList _ els) => els | _ => [] end.
  Fixpoint eref (a : nat) h : nat := match h with [] => 0 | o :: h => cnt a (oels o) + eref a h end.
  Definition orc (o : obj V) : nat := match o with OMat rc _ | OList rc _ => rc end.
  Definition rcof h (a : nat) : nat := match h !! a with Some (Some o) => orc o | _ => 0 end.
  Definition content h (a : nat) : option (val V + list nat) :=
    match h !! a with Some (Some (OMat _ v)) => Some (inl (VMat v)) | Some (Some (OList _ els)) => Some (inr els) | _ => None end.
  Record WF h (R : list nat) : Prop := mkWF {
    wf_rc : forall a, rcof h a = eref a h + cnt a R;
    wf_pos : forall a, content h a <> None -> 0 < rcof h a;
    wf_els : forall l els e, content h l = Some (inr els) -> e ∈ els -> exists v, content h e = Some (inl (VMat v)) }.

  Lemma cnt_app a l k : cnt a (l ++ k) = cnt a l + cnt a k.
  Proof. apply count_occ_app. Qed.
  Lemma cnt_cons a b l : cnt a (b :: l) = (if decide (b = a) then 1 else 0) + cnt a l.
  Proof. unfold cnt. cbn. destruct (Nat.eq_dec b a), (decide (b = a)); lia. Qed.
  Lemma cnt_pos a l : a ∈ l -> 0 < cnt a l.
  Proof. intros H. apply count_occ_In. by apply elem_of_list_In. Qed.
  Lemma eref_app a h k : eref a (h ++ k) = eref a h + eref a k.
  Proof. induction h as [|o h IH]; cbn; [done|]. rewrite IH. lia. Qed.
  Lemma eref_insert a o' : forall h i o, h !! i = Some o -> eref a (<[i := o']> h) + cnt a (oels o) = eref a h + cnt a (oels o').
  Proof.
    induction h as [|p h IH]; intros [|i] o E; try done; cbn in *.
    - injection E as ->. lia.
    - specialize (IH i o E). unfold insert in *. cbn in *. lia.
  Qed.
  Lemma eref_pos a l els : forall h, content h l = Some (inr els) -> a ∈ els -> 0 < eref a h.
  Proof.
    intros h. unfold content. destruct (h !! l) as [o|] eqn:E; [|done]. intros Hc Ha. destruct o as [[rc v|rc els']|]; try done. injection Hc as ->.
    revert l E. induction h as [|p h IH]; intros [|l] E; try done; cbn in *.
    - injection E as ->. change (0 < cnt a els + eref a h). pose proof (cnt_pos _ _ Ha). lia.
    - specialize (IH l E). lia.
  Qed.
  Lemma live_of_rc h a : 0 < rcof h a -> exists o, h !! a = Some (Some o).
  Proof. unfold rcof. destruct (h !! a) as [[o|]|]; [by exists o|lia|lia]. Qed.
  Lemma rc_live h a o : h !! a = Some (Some o) -> content h a <> None.
  Proof. unfold content. intros ->. by destruct o. Qed.
  Lemma content_insert_ne h a b o : a <> b -> content (<[b := o]> h) a = content h a.
  Proof. intros H. unfold content. by rewrite list_lookup_insert_ne. Qed.
  Lemma rcof_insert_ne h a b o : a <> b -> rcof (<[b := o]> h) a = rcof h a.
  Proof. intros H. unfold rcof. by rewrite list_lookup_insert_ne. Qed.
  Lemma content_insert h b o : b < length h -> content (<[b := o]> h) b = match o with Some (OMat _ v) => Some (inl (VMat v)) | Some (OList _ els) => Some (inr els) | None => None end.
  Proof. intros H. unfold content. rewrite list_lookup_insert by done. by destruct o as [[]|]. Qed.
  Lemma rcof_insert h b o : b < length h -> rcof (<[b := o]> h) b = match o with Some o => orc o | None => 0 end.
  Proof. intros H. unfold rcof. rewrite list_lookup_insert by done. by destruct o. Qed.
  Lemma content_mat h a v : content h a = Some (inl (VMat v)) -> exists rc, h !! a = Some (Some (OMat rc v)).
  Proof. unfold content. destruct (h !! a) as [[[rc w|rc els]|]|]; try done. intros [= ->]. by exists rc. Qed.
  Lemma content_list h a els : content h a = Some (inr els) -> exists rc, h !! a = Some (Some (OList rc els)).
  Proof. unfold content. destruct (h !! a) as [[[rc w|rc els']|]|]; try done. intros [= ->]. by exists rc. Qed.
  Lemma WF_perm h R R' : (forall a, cnt a R = cnt a R') -> WF h R -> WF h R'.
  Proof. intros E [H1 H2 H3]. split; [|done|done]. intros a. rewrite <- E. apply H1. Qed.

  Lemma WF_alloc h R o : WF h R -> orc o = 1 -> oels (Some o) = [] -> WF (h ++ [Some o]) (length h :: R) /\
    (forall a, content h a <> None -> content (h ++ [Some o]) a = content h a).
  Proof.
    intros [H1 H2 H3] Ho He.
    assert (Hz : rcof h (length h) = 0) by (unfold rcof; rewrite lookup_ge_None_2; done).
    assert (Hlt : forall a, a < length h -> (h ++ [Some o]) !! a = h !! a) by (intros a Ha; by rewrite lookup_app_l).
    assert (Hn : (h ++ [Some o]) !! length h = Some (Some o)) by (rewrite lookup_app_r, Nat.sub_diag by lia; done).
    assert (Hlive : forall a, content h a <> None -> a < length h).
    { intros a Ha. unfold content in Ha. destruct (h !! a) eqn:E; [by eapply lookup_lt_Some|done]. }
    assert (Hc : forall a, content h a <> None -> content (h ++ [Some o]) a = content h a).
    { intros a Ha. unfold content. by rewrite Hlt by auto. }
    split; [|exact Hc]. split.
    - intros a. rewrite eref_app, cnt_cons. cbn [eref]. rewrite He. cbn [cnt count_occ]. destruct (decide (length h = a)) as [<-|Hne].
      + specialize (H1 (length h)). unfold rcof at 1. rewrite Hn. cbn. lia.
      + specialize (H1 a). unfold rcof. unfold rcof in H1. destruct (decide (a < length h)) as [Ha|Ha].
        * rewrite Hlt by done. cbn. lia.
        * rewrite lookup_ge_None_2 by (rewrite app_length; cbn; lia). rewrite lookup_ge_None_2 in H1 by lia. cbn. lia.
    - intros a Ha. destruct (decide (length h = a)) as [<-|Hne].
      + unfold rcof. rewrite Hn. lia.
      + destruct (decide (a < length h)) as [Hl|Hl].
        * unfold content in Ha. rewrite Hlt in Ha by done. unfold rcof. rewrite Hlt by done. by apply H2.
        * unfold content in Ha. rewrite lookup_ge_None_2 in Ha by (rewrite app_length; cbn; lia). done.
    - intros l els e Hl Hin. destruct (decide (length h = l)) as [<-|Hne].
      + unfold content in Hl. rewrite Hn in Hl. destruct o as [rc v|rc els']; [done|]. injection Hl as ->. cbn in He. subst els. by apply elem_of_nil in Hin.
      + assert (Hl' : l < length h).
        { unfold content in Hl. destruct (decide (l < length h)); [done|]. rewrite lookup_ge_None_2 in Hl by (rewrite app_length; cbn; lia). done. }
        unfold content in Hl. rewrite Hlt in Hl by done. destruct (H3 l els e Hl Hin) as [v Hv]. exists v. rewrite Hc; [done|]. by rewrite Hv.
  Qed.
  Lemma WF_inc h R a : WF h R -> content h a <> None -> exists h', inc h a = Ok h' /\ WF h' (a :: R) /\ (forall b, content h' b = content h b) /\ length h' = length h.
  Proof.
    intros [H1 H2 H3] Ha. unfold inc. destruct (h !! a) as [[o|]|] eqn:E; [|unfold content in Ha; by rewrite E in Ha..].
    assert (Hlt : a < length h) by (by eapply lookup_lt_Some).
    set (o' := match o with OMat rc v => OMat (rc + 1) v | OList rc els => OList (rc + 1) els end).
    assert (Hc : forall b, content (<[a := Some o']> h) b = content h b).
    { intros b. destruct (decide (b = a)) as [->|Hne]; [|by apply content_insert_ne]. rewrite content_insert by done. unfold content. rewrite E. by destruct o. }
    exists (<[a := Some o']> h). split_and!; [by destruct o| |exact Hc|by rewrite insert_length]. split.
    - intros b. pose proof (eref_insert b (Some o') h a _ E) as He. assert (oels (Some o') = oels (Some o)) as Eo by (by destruct o). rewrite Eo in He. apply Nat.add_cancel_r in He.
      rewrite cnt_cons. specialize (H1 b). destruct (decide (a = b)) as [<-|Hne].
      + rewrite rcof_insert by done. unfold rcof in H1. rewrite E in H1. assert (Erc : orc o' = orc o + 1) by (by destruct o). rewrite Erc, He. lia.
      + rewrite rcof_insert_ne by done. lia.
    - intros b Hb. rewrite Hc in Hb. destruct (decide (b = a)) as [->|Hne]; [|rewrite rcof_insert_ne by done; by apply H2].
      rewrite rcof_insert by done. unfold o'. destruct o; cbn; lia.
    - intros l els e Hl Hin. rewrite Hc in Hl. destruct (H3 _ _ _ Hl Hin) as [v Hv]. exists v. by rewrite Hc.
  Qed.
  (** Replacing the elements of a list: references move between the list and the roots. *)
  Lemma WF_set h R R' l els els' : WF h R -> content h l = Some (inr els) -> (forall a, cnt a els' + cnt a R' = cnt a els + cnt a R) ->
    (forall e, e ∈ els' -> exists v, content h e = Some (inl (VMat v))) ->
    exists h', set_els h l els' = Ok h' /\ WF h' R' /\ content h' l = Some (inr els') /\ (forall b, b <> l -> content h' b = content h b) /\ length h' = length h.
  Proof.
    intros [H1 H2 H3] Hl Hcnt Hm. destruct (content_list _ _ _ Hl) as [rc E]. unfold set_els. rewrite E. assert (Hlt : l < length h) by (by eapply lookup_lt_Some).
    exists (<[l := Some (OList rc els')]> h). split_and!; [done| |by rewrite content_insert|intros b Hb; by apply content_insert_ne|by rewrite insert_length].
    assert (Hmat : forall e v, content h e = Some (inl (VMat v)) -> content (<[l := Some (OList rc els')]> h) e = Some (inl (VMat v))).
    { intros e v He. rewrite content_insert_ne; [done|]. intros ->. by rewrite Hl in He. }
    split.
    - intros a. pose proof (eref_insert a (Some (OList rc els')) h l _ E) as He. cbn [oels] in He. specialize (H1 a). specialize (Hcnt a).
      destruct (decide (a = l)) as [->|Hne]; [rewrite rcof_insert by done; unfold rcof in H1; rewrite E in H1; cbn in *; lia|]. rewrite rcof_insert_ne by done. lia.
    - intros a Ha. destruct (decide (a = l)) as [->|Hne].
      + rewrite rcof_insert by done. assert (0 < rcof h l) as Hp by (apply H2; by rewrite Hl). unfold rcof in Hp. by rewrite E in Hp.
      + rewrite rcof_insert_ne by done. apply H2. by rewrite content_insert_ne in Ha.
    - intros k kels e Hk Hin. destruct (decide (k = l)) as [->|Hne].
      + rewrite content_insert in Hk by done. injection Hk as <-. destruct (Hm e Hin) as [v Hv]. exists v. by apply Hmat.
      + rewrite content_insert_ne in Hk by done. destruct (H3 _ _ _ Hk Hin) as [v Hv]. exists v. by apply Hmat.
  Qed.
  Lemma content_Ok h l els : content h l = Some (inr els) -> els_of h l = Ok els.
  Proof. intros Hl. destruct (content_list _ _ _ Hl) as [rc E]. unfold els_of. by rewrite E. Qed.
  Lemma WF_append h R l els e v : WF h R -> content h l = Some (inr els) -> content h e = Some (inl (VMat v)) ->
    exists h', l_append h l e = Ok h' /\ WF h' R /\ content h' l = Some (inr (els ++ [e])) /\ (forall b, b <> l -> content h' b = content h b) /\ length h' = length h.
  Proof.
    intros W Hl He. unfold l_append. destruct (WF_inc h R e W) as (h1 & E1 & W1 & C1 & L1); [by rewrite He|]. rewrite E1. cbn [obind].
    rewrite <- C1 in Hl. rewrite (content_Ok _ _ _ Hl). cbn [obind].
    destruct (WF_set h1 (e :: R) R l els (els ++ [e]) W1 Hl) as (h2 & E2 & W2 & C2 & D2 & L2).
    - intros a. rewrite cnt_app, !cnt_cons. cbn. lia.
    - intros e' [Hin|Hin]%elem_of_app; [by apply (wf_els _ _ W1 _ _ _ Hl)|]. apply elem_of_list_singleton in Hin as ->. exists v. by rewrite C1.
    - exists h2. split_and!; [done|done|done| |lia]. intros b Hb. rewrite D2 by done. apply C1.
  Qed.
  Lemma WF_appends R l es : forall h els, WF h R -> content h l = Some (inr els) -> (forall e, e ∈ es -> exists v, content h e = Some (inl (VMat v))) ->
    exists h', l_appends h l es = Ok h' /\ WF h' R /\ content h' l = Some (inr (els ++ es)) /\ (forall b, b <> l -> content h' b = content h b) /\ length h' = length h.
  Proof.
    induction es as [|e es IH]; intros h els W Hl He; cbn.
    - exists h. rewrite app_nil_r. done.
    - destruct (He e) as [v Hv]; [by left|]. destruct (WF_append h R l els e v W Hl Hv) as (h1 & E1 & W1 & C1 & D1 & L1). rewrite E1. cbn [obind].
      destruct (IH h1 (els ++ [e]) W1 C1) as (h2 & E2 & W2 & C2 & D2 & L2).
      + intros e' Hin. destruct (He e') as [v' Hv']; [by right|]. exists v'. rewrite D1; [done|]. intros ->. by rewrite Hl in Hv'.
      + exists h2. rewrite <- app_assoc in C2. split_and!; [done|done|done| |lia]. intros b Hb. rewrite D2 by done. by apply D1.
  Qed.
  Lemma WF_create h R es : WF h R -> (forall e, e ∈ es -> exists v, content h e = Some (inl (VMat v))) ->
    exists h' l, k_create h es = Ok (h', l) /\ WF h' (l :: R) /\ content h' l = Some (inr es) /\ content h l = None /\ (forall b, content h b <> None -> content h' b = content h b).
  Proof.
    intros W He. unfold k_create, alloc. destruct (WF_alloc h R (OList 1 []) W) as [W1 C1]; [done|done|]. set (h1 := h ++ [Some (OList 1 [])]) in *.
    assert (Hnone : content h (length h) = None) by (unfold content; by rewrite lookup_ge_None_2).
    assert (Hl : content h1 (length h) = Some (inr [])).
    { unfold content, h1. rewrite lookup_app_r, Nat.sub_diag by lia. done. }
    destruct (WF_appends (length h :: R) (length h) es h1 [] W1 Hl) as (h2 & E2 & W2 & C2 & D2 & L2).
    - intros e Hin. destruct (He e Hin) as [v Hv]. exists v. rewrite C1; [done|]. by rewrite Hv.
    - exists h2, (length h). rewrite E2. cbn [obind]. split_and!; [done|done|done|done|]. intros b Hb. rewrite D2; [by apply C1|]. intros ->. by rewrite Hnone in Hb.
  Qed.
  Lemma WF_copy h R l es : WF h R -> content h l = Some (inr es) ->
    exists h' l', l_copy h l = Ok (h', l') /\ WF h' (l' :: R) /\ content h' l' = Some (inr es) /\ content h l' = None /\ (forall b, content h b <> None -> content h' b = content h b).
  Proof.
    intros W Hl. unfold l_copy. rewrite (content_Ok _ _ _ Hl). cbn [obind]. apply WF_create; [done|]. intros e Hin. by apply (wf_els _ _ W _ _ _ Hl).
  Qed.
  (** Giving up references: what is still referenced stays as it is. *)
  Definition shrinks h h' : Prop := forall a, content h' a <> None -> content h' a = content h a.
  Lemma shrinks_trans h1 h2 h3 : shrinks h1 h2 -> shrinks h2 h3 -> shrinks h1 h3.
  Proof. intros A B a Ha. rewrite (B a Ha). apply A. by rewrite <- (B a Ha). Qed.
  Lemma WF_delete h R a o : WF h R -> h !! a = Some (Some o) -> cnt a R = 1 -> eref a h = 0 ->
    WF (<[a := None]> h) (oels (Some o) ++ remove Nat.eq_dec a R) /\ shrinks h (<[a := None]> h).
  Proof.
    intros [H1 H2 H3] E Hr He. assert (Hlt : a < length h) by (by eapply lookup_lt_Some).
    assert (Hrem : forall b, cnt b (remove Nat.eq_dec a R) = if decide (b = a) then 0 else cnt b R).
    { intros b. unfold cnt. destruct (decide (b = a)) as [->|Hne]; [apply count_occ_not_In, remove_In|]. clear -Hne. induction R as [|c R IH]; [done|]. cbn.
      destruct (Nat.eq_dec a c) as [<-|]; [destruct (Nat.eq_dec a b); [by subst|done]|]. cbn. destruct (Nat.eq_dec c b); by rewrite IH. }
    split; [split|].
    - intros b. pose proof (eref_insert b None h a _ E) as Hi. rewrite cnt_app, Hrem. specialize (H1 b). destruct (decide (b = a)) as [->|Hne].
      + rewrite rcof_insert by done. change (cnt a (oels None)) with 0 in Hi. pose proof (eq_refl (cnt a (oels (Some o)))).
        assert (cnt a (oels (Some o)) = 0); [|lia]. destruct (decide (a ∈ oels (Some o))) as [Hin|Hni].
        * exfalso. assert (content h a = Some (inr (oels (Some o)))) as Hc by (unfold content; rewrite E; destruct o; [by apply elem_of_nil in Hin|done]).
          pose proof (eref_pos a a _ h Hc Hin). lia.
        * unfold cnt. apply count_occ_not_In. by rewrite <- elem_of_list_In.
      + rewrite rcof_insert_ne by done. change (cnt b (oels None)) with 0 in Hi. lia.
    - intros b Hb. destruct (decide (b = a)) as [->|Hne]; [by rewrite content_insert in Hb|]. rewrite rcof_insert_ne by done. apply H2. by rewrite content_insert_ne in Hb.
    - intros l els e Hl Hin. destruct (decide (l = a)) as [->|Hne]; [by rewrite content_insert in Hl|]. rewrite content_insert_ne in Hl by done.
      destruct (H3 _ _ _ Hl Hin) as [v Hv]. exists v. rewrite content_insert_ne; [done|]. intros ->. pose proof (eref_pos _ _ _ h Hl Hin). lia.
    - intros b Hb. destruct (decide (b = a)) as [->|Hne]; [by rewrite content_insert in Hb|]. by apply content_insert_ne.
  Qed.
  Lemma cnt_remove_head a R : cnt a (a :: R) = 1 -> forall b, cnt b (remove Nat.eq_dec a (a :: R)) = cnt b R.
  Proof.
    rewrite cnt_cons, decide_True by done. intros H b. cbn [remove]. destruct (Nat.eq_dec a a); [|done]. rewrite notin_remove; [done|].
    apply (count_occ_not_In Nat.eq_dec). fold (cnt a R). lia.
  Qed.
  Lemma WF_lower h R a o o' : WF h (a :: R) -> h !! a = Some (Some o) -> orc o = S (orc o') -> 0 < orc o' -> content h a = content (<[a := Some o']> h) a ->
    WF (<[a := Some o']> h) R /\ shrinks h (<[a := Some o']> h).
  Proof.
    intros [H1 H2 H3] E Hrc Hp Hc. assert (Hlt : a < length h) by (by eapply lookup_lt_Some).
    assert (Hall : forall b, content (<[a := Some o']> h) b = content h b).
    { intros b. destruct (decide (b = a)) as [->|Hne]; [done|by apply content_insert_ne]. }
    assert (Hels : oels (Some o') = oels (Some o)).
    { rewrite content_insert in Hc by done. unfold content in Hc. rewrite E in Hc. destruct o, o'; try done. by injection Hc as ->. }
    split; [split|].
    - intros b. pose proof (eref_insert b (Some o') h a _ E) as Hi. rewrite Hels in Hi. specialize (H1 b). rewrite cnt_cons in H1.
      destruct (decide (a = b)) as [<-|Hne].
      + rewrite rcof_insert by done. unfold rcof in H1. rewrite E in H1. lia.
      + rewrite rcof_insert_ne by done. lia.
    - intros b Hb. rewrite Hall in Hb. destruct (decide (b = a)) as [->|Hne]; [by rewrite rcof_insert|]. rewrite rcof_insert_ne by done. by apply H2.
    - intros l els e Hl Hin. rewrite Hall in Hl. destruct (H3 _ _ _ Hl Hin) as [v Hv]. exists v. by rewrite Hall.
    - intros b _. apply Hall.
  Qed.
  Lemma WF_dec_mat h R a v : WF h (a :: R) -> content h a = Some (inl (VMat v)) -> exists h', dec_mat h a = Ok h' /\ WF h' R /\ shrinks h h'.
  Proof.
    intros W Ha. destruct (content_mat _ _ _ Ha) as [rc E]. unfold dec_mat. rewrite E.
    assert (Hp : 0 < rcof h a) by (apply (wf_pos _ _ W); by rewrite Ha). pose proof (wf_rc _ _ W a) as Hrc. rewrite cnt_cons, decide_True in Hrc by done.
    unfold rcof in Hp, Hrc. rewrite E in Hp, Hrc. cbn in Hp, Hrc. rewrite decide_False by lia. assert (Hlt : a < length h) by (by eapply lookup_lt_Some). case_decide as H1.
    - assert (Hc1 : cnt a (a :: R) = 1) by (rewrite cnt_cons, decide_True by done; lia).
      destruct (WF_delete h (a :: R) a _ W E) as [W' S']; [done|lia|]. eexists. split; [done|]. split; [|done].
      eapply WF_perm; [|exact W']. intros b. cbn [oels app]. by apply cnt_remove_head.
    - destruct (WF_lower h R a _ (OMat (rc - 1) v) W E) as [W' S']; [cbn; lia|cbn; lia| |].
      + rewrite content_insert by done. exact Ha.
      + eexists. split; [done|]. done.
  Qed.
  Lemma live_root h R a : WF h R -> a ∈ R -> content h a <> None.
  Proof.
    intros W Ha. pose proof (wf_rc _ _ W a) as Hrc. pose proof (cnt_pos _ _ Ha). destruct (live_of_rc h a) as [o E]; [lia|]. by eapply rc_live.
  Qed.
  Lemma WF_dec_mats es : forall h R, WF h (es ++ R) -> (forall e, e ∈ es -> exists v, content h e = Some (inl (VMat v))) ->
    exists h', dec_mats h es = Ok h' /\ WF h' R /\ shrinks h h'.
  Proof.
    induction es as [|e es IH]; intros h R W He; cbn.
    - exists h. split; [done|]. split; [done|]. intros a _. done.
    - destruct (He e) as [v Hv]; [by left|]. destruct (WF_dec_mat h (es ++ R) e v W Hv) as (h1 & E1 & W1 & S1). rewrite E1. cbn [obind].
      destruct (IH h1 R W1) as (h2 & E2 & W2 & S2).
      + intros e' Hin. destruct (He e') as [v' Hv']; [by right|]. exists v'. rewrite S1; [done|]. apply (live_root _ _ _ W1). apply elem_of_app. by left.
      + exists h2. split; [done|]. split; [done|]. by eapply shrinks_trans.
  Qed.
  Lemma WF_destroy h R a : WF h (a :: R) -> exists h', destroy h a = Ok h' /\ WF h' R /\ shrinks h h'.
  Proof.
    intros W. assert (Hlive : content h a <> None) by (apply (live_root _ _ _ W); by left). unfold destroy.
    destruct (h !! a) as [[[rc v|rc els]|]|] eqn:E; [| |unfold content in Hlive; by rewrite E in Hlive..].
    - apply (WF_dec_mat _ _ _ v W). unfold content. by rewrite E.
    - assert (Hc : content h a = Some (inr els)) by (unfold content; by rewrite E). pose proof (wf_pos _ _ W a Hlive) as Hp.
      pose proof (wf_rc _ _ W a) as Hrc. rewrite cnt_cons, decide_True in Hrc by done. unfold rcof in Hp, Hrc. rewrite E in Hp, Hrc. cbn in Hp, Hrc.
      rewrite decide_False by lia. assert (Hlt : a < length h) by (by eapply lookup_lt_Some). case_decide as H1.
      + assert (Hc1 : cnt a (a :: R) = 1) by (rewrite cnt_cons, decide_True by done; lia).
        destruct (WF_delete h (a :: R) a _ W E) as [W' S']; [done|lia|]. cbn [oels] in W'.
        destruct (WF_dec_mats els (<[a := None]> h) R) as (h' & E' & W'' & S'').
        * eapply WF_perm; [|exact W']. intros b. rewrite !cnt_app. f_equal. by apply cnt_remove_head.
        * intros e Hin. destruct (wf_els _ _ W _ _ _ Hc Hin) as [v Hv]. exists v. rewrite content_insert_ne; [done|]. intros ->. by rewrite Hc in Hv.
        * exists h'. split; [done|]. split; [done|]. by eapply shrinks_trans.
      + destruct (WF_lower h R a _ (OList (rc - 1) els) W E) as [W' S']; [cbn; lia|cbn; lia| |].
        * rewrite content_insert by done. exact Hc.
        * eexists. split; [done|]. done.
  Qed.

  (** Relation between memory and values *)
  Definition repr_val h (a : nat) (w : val V) : Prop :=
    match w with
    | VMat v => content h a = Some (inl (VMat v))
    | VList vs => exists els, content h a = Some (inr els) /\ Forall2 (fun e v => content h e = Some (inl (VMat v))) els vs
    end.
  Definition repr_var h (o : option nat) (w : option (val V)) : Prop := match o, w with Some a, Some w => repr_val h a w | None, None => True | _, _ => False end.
  Definition roots (env : list (option nat)) : list nat := omap id env.
  Record sim (s : state V) (p : pstate V) : Prop := mkSim {
    sim_wf : WF (s_heap s) (roots (s_env s));
    sim_env : Forall2 (repr_var (s_heap s)) (s_env s) (p_env p);
    sim_out : s_out s = p_out p }.
  Lemma repr_grow h h' o w : (forall b, content h b <> None -> content h' b = content h b) -> repr_var h o w -> repr_var h' o w.
  Proof.
    intros C. destruct o as [a|], w as [w|]; try done. destruct w as [v|vs]; cbn.
    - intros Ha. rewrite C; [done|]. by rewrite Ha.
    - intros (els & Ha & Hf). exists els. split; [rewrite C; [done|]; by rewrite Ha|]. eapply Forall2_impl; [exact Hf|]. intros e v He. rewrite C; [done|]. by rewrite He.
  Qed.
  Lemma repr_shrink h h' R a w : WF h' R -> a ∈ R -> shrinks h h' -> repr_val h a w -> repr_val h' a w.
  Proof.
    intros W Hin S Hr. pose proof (live_root _ _ _ W Hin) as Hl. destruct w as [v|vs]; cbn in *.
    - by rewrite S.
    - destruct Hr as (els & Ha & Hf). exists els. assert (Ha' : content h' a = Some (inr els)) by (by rewrite S). split; [done|].
      apply Forall2_same_length_lookup in Hf as [Hlen Hf]. apply Forall2_same_length_lookup. split; [done|]. intros i e v He Hv.
      destruct (wf_els _ _ W _ _ e Ha') as [v' Hv']; [by apply elem_of_list_lookup_2 in He|]. rewrite S; [by apply (Hf i)|]. by rewrite Hv'.
  Qed.
  Lemma sim_var s p x w : sim s p -> p_env p !! x = Some (Some w) -> exists a, var s x = Ok a /\ repr_val (s_heap s) a w /\ s_env s !! x = Some (Some a).
  Proof.
    intros S E. pose proof (sim_env _ _ S) as F. destruct (Forall2_lookup_r _ _ _ _ _ F E) as (o & Eo & Hr). destruct o as [a|]; [|done].
    exists a. unfold var. by rewrite Eo.
  Qed.
  Lemma sim_mat s p x v : sim s p -> pmat p x = Ok v -> exists a, var s x = Ok a /\ content (s_heap s) a = Some (inl (VMat v)).
  Proof.
    intros S. unfold pmat. destruct (p_env p !! x) as [[[w|vs]|]|] eqn:E; try done. intros [= ->]. destruct (sim_var _ _ _ _ S E) as (a & Ha & Hr & _). by exists a.
  Qed.
  Lemma sim_list s p x vs : sim s p -> plist p x = Ok vs -> exists a els, var s x = Ok a /\ content (s_heap s) a = Some (inr els) /\
    Forall2 (fun e v => content (s_heap s) e = Some (inl (VMat v))) els vs.
  Proof.
    intros S. unfold plist. destruct (p_env p !! x) as [[[w|ws]|]|] eqn:E; try done. intros [= ->]. destruct (sim_var _ _ _ _ S E) as (a & Ha & (els & Hc & Hf) & _). by exists a, els.
  Qed.
  Lemma sim_mats s p xs : forall vs, sim s p -> pmats p xs = Ok vs -> exists es, vars s xs = Ok es /\ Forall2 (fun e v => content (s_heap s) e = Some (inl (VMat v))) es vs.
  Proof.
    induction xs as [|x xs IH]; intros vs S E; cbn in *.
    - injection E as <-. exists []. split; [done|constructor].
    - destruct (pmat p x) as [v| |] eqn:Ev; try done. cbn in E. destruct (pmats p xs) as [ws| |] eqn:Ew; try done. injection E as <-.
      destruct (sim_mat _ _ _ _ S Ev) as (a & Ha & Hc). destruct (IH ws S eq_refl) as (es & He & Hf). exists (a :: es). rewrite Ha. cbn. rewrite He. split; [done|by constructor].
  Qed.
  Lemma els_mats h (es : list nat) (vs : list V) : Forall2 (fun e v => content h e = Some (inl (VMat v))) es vs -> forall e, e ∈ es -> exists v, content h e = Some (inl (VMat v)).
  Proof. intros F e (i & Hi)%elem_of_list_lookup. destruct (Forall2_lookup_l _ _ _ _ _ F Hi) as (v & _ & Hv). by exists v. Qed.
  Lemma mats_of_Ok h es (vs : list V) : Forall2 (fun e v => content h e = Some (inl (VMat v))) es vs -> mats_of h es = Ok vs.
  Proof.
    induction 1 as [|e v es vs He _ IH]; [done|]. cbn. destruct (content_mat _ _ _ He) as [rc E]. unfold mat_of at 1. rewrite E. cbn [obind]. by rewrite IH.
  Qed.
  Lemma roots_app e1 e2 : roots (e1 ++ e2) = roots e1 ++ roots e2.
  Proof. unfold roots. by rewrite omap_app. Qed.
  Lemma cnt_new env a b : cnt b (a :: roots env) = cnt b (roots env ++ roots [Some a]).
  Proof. rewrite cnt_app. change (roots [Some a]) with [a]. rewrite !cnt_cons. change (cnt b []) with 0. lia. Qed.
  Lemma cnt_new2 env a a' b : cnt b (a' :: a :: roots env) = cnt b (roots env ++ roots [Some a; Some a']).
  Proof. rewrite cnt_app. change (roots [Some a; Some a']) with [a; a']. rewrite !cnt_cons. change (cnt b []) with 0. lia. Qed.
  Lemma cnt_swap R R' a : cnt a (R ++ R') = cnt a (R' ++ R).
  Proof. rewrite !cnt_app. lia. Qed.
  Lemma Forall2_content_grow h h' (els : list nat) (vs : list V) : (forall b, content h b <> None -> content h' b = content h b) ->
    Forall2 (fun e v => content h e = Some (inl (VMat v))) els vs -> Forall2 (fun e v => content h' e = Some (inl (VMat v))) els vs.
  Proof. intros C F. eapply Forall2_impl; [exact F|]. intros e v He. cbn in *. rewrite C; [done|]. by rewrite He. Qed.
  Lemma roots_kill env x a : env !! x = Some (Some a) -> forall b, cnt b (a :: roots (<[x := None]> env)) = cnt b (roots env).
  Proof.
    revert x. induction env as [|o env IH]; intros [|x] E b; try done; cbn in E.
    - injection E as ->. done.
    - specialize (IH x E b). change (<[S x := None]> (o :: env)) with (o :: <[x := None]> env). destruct o as [c|]; [|exact IH].
      change (roots (Some c :: <[x := None]> env)) with (c :: roots (<[x := None]> env)). change (roots (Some c :: env)) with (c :: roots env).
      rewrite !cnt_cons in *. lia.
  Qed.
  Lemma root_in env x a : env !! x = Some (Some a) -> a ∈ roots env.
  Proof. intros E. unfold roots. apply elem_of_list_omap. exists (Some a). split; [by apply elem_of_list_lookup_2 in E|done]. Qed.

  Lemma step_sim s p c p' : sim s p -> pstep p c = Ok p' -> exists s', step s c = Ok s' /\ sim s' p'.
  Proof.
    intros S E. pose proof S as [W F O]. destruct c as [v|xs|x y|x idx|x|x|x|x]; cbn [pstep step] in E |- *.
    - injection E as <-. unfold alloc. destruct (WF_alloc (s_heap s) _ (OMat 1 v) W) as [W1 C1]; [done|done|]. eexists. split; [done|]. split; cbn; [| |done].
      + rewrite roots_app. eapply WF_perm; [|exact W1]. intros a. apply cnt_new.
      + apply Forall2_app; [eapply Forall2_impl; [exact F|]; intros o w; by apply repr_grow|]. constructor; [|constructor]. cbn. unfold content.
        rewrite lookup_app_r, Nat.sub_diag by lia. done.
    - destruct (pmats p xs) as [vs| |] eqn:Ev; try done. injection E as <-. destruct (sim_mats _ _ _ _ S Ev) as (es & Ees & Fe). rewrite Ees. cbn [obind].
      destruct (WF_create _ _ es W (els_mats _ _ _ Fe)) as (h' & l & El & W1 & Cl & _ & C1). rewrite El. cbn [obind]. eexists. split; [done|]. split; cbn; [| |done].
      + rewrite roots_app. eapply WF_perm; [|exact W1]. intros a. apply cnt_new.
      + apply Forall2_app; [eapply Forall2_impl; [exact F|]; intros o w; by apply repr_grow|]. constructor; [|constructor]. cbn. exists es. split; [done|].
        by eapply Forall2_content_grow.
    - destruct (plist p x) as [vs| |] eqn:Ex; try done. cbn in E. destruct (pmat p y) as [v| |] eqn:Ey; try done. injection E as <-.
      destruct (sim_list _ _ _ _ S Ex) as (l & els & El & Cl & Fl). destruct (sim_mat _ _ _ _ S Ey) as (e & Ee & Ce). rewrite El. cbn [obind]. rewrite Ee. cbn [obind].
      unfold k_append. destruct (WF_copy _ _ l els W Cl) as (h1 & l' & E1 & W1 & C1 & N1 & G1). rewrite E1. cbn [obind].
      assert (Ce1 : content h1 e = Some (inl (VMat v))) by (rewrite G1; [done|]; by rewrite Ce).
      destruct (WF_append h1 _ l' els e v W1 C1 Ce1) as (h2 & E2 & W2 & C2 & D2 & _). rewrite E2. cbn [obind]. eexists. split; [done|].
      assert (G2 : forall b, content (s_heap s) b <> None -> content h2 b = content (s_heap s) b).
      { intros b Hb. rewrite D2; [by apply G1|]. intros ->. by rewrite N1 in Hb. }
      split; cbn; [| |done].
      + rewrite roots_app. eapply WF_perm; [|exact W2]. intros a. apply cnt_new.
      + apply Forall2_app; [eapply Forall2_impl; [exact F|]; intros o w; by apply repr_grow|]. constructor; [|constructor]. cbn. exists (els ++ [e]). split; [done|].
        apply Forall2_app; [by eapply Forall2_content_grow|]. constructor; [|constructor]. rewrite G2; [done|]. by rewrite Ce.
    - destruct (plist p x) as [vs| |] eqn:Ex; try done. cbn in E. destruct (vs !! idx) as [v|] eqn:Ei; [|done]. injection E as <-.
      destruct (sim_list _ _ _ _ S Ex) as (l & els & El & Cl & Fl). rewrite El. cbn [obind]. unfold k_remove.
      destruct (WF_copy _ _ l els W Cl) as (h1 & l' & E1 & W1 & C1 & N1 & G1). rewrite E1. cbn [obind]. unfold l_remove. rewrite (content_Ok _ _ _ C1). cbn [obind].
      destruct (Forall2_lookup_r _ _ _ _ _ Fl Ei) as (e & Ee & Ce). rewrite decide_False by (apply lookup_lt_Some in Ee; lia). rewrite (rd_Ok _ _ _ Ee). cbn [obind].
      destruct (WF_set h1 _ (e :: l' :: roots (s_env s)) l' els (take idx els ++ drop (Datatypes.S idx) els) W1 C1) as (h2 & E2 & W2 & C2 & D2 & _).
      { intros a. assert (Hsplit : cnt a els = cnt a (take idx els ++ e :: drop (Datatypes.S idx) els)) by (by rewrite take_drop_middle).
        rewrite Hsplit, !cnt_app, !cnt_cons. lia. }
      { intros e' Hin. apply (wf_els _ _ W1 _ _ _ C1). apply elem_of_app in Hin as [Hin|Hin]; [by apply elem_of_take in Hin as (i & Hi & _); apply elem_of_list_lookup_2 in Hi|].
        apply elem_of_list_lookup in Hin as (i & Hi). rewrite lookup_drop in Hi. by apply elem_of_list_lookup_2 in Hi. }
      rewrite E2. cbn [obind]. eexists. split; [done|].
      assert (G2 : forall b, content (s_heap s) b <> None -> content h2 b = content (s_heap s) b).
      { intros b Hb. rewrite D2; [by apply G1|]. intros ->. by rewrite N1 in Hb. }
      split; cbn; [| |done].
      + rewrite roots_app. eapply WF_perm; [|exact W2]. intros a. apply cnt_new2.
      + apply Forall2_app; [eapply Forall2_impl; [exact F|]; intros o w; by apply repr_grow|]. constructor; [|constructor; [|constructor]]; cbn.
        * exists (take idx els ++ drop (Datatypes.S idx) els). split; [done|]. rewrite delete_take_drop. eapply Forall2_content_grow; [exact G2|].
          apply Forall2_app; [by apply Forall2_take|by apply Forall2_drop].
        * rewrite G2; [done|]. by rewrite Ce.
    - destruct (plist p x) as [vs| |] eqn:Ex; try done. injection E as <-. destruct (sim_list _ _ _ _ S Ex) as (l & els & El & Cl & Fl). rewrite El. cbn [obind].
      unfold k_length. rewrite (content_Ok _ _ _ Cl). cbn [obind]. eexists. split; [done|]. split; cbn; [done|done|]. by rewrite O, (Forall2_length _ _ _ Fl).
    - destruct (plist p x) as [vs| |] eqn:Ex; try done. injection E as <-. destruct (sim_list _ _ _ _ S Ex) as (l & els & El & Cl & Fl). rewrite El. cbn [obind].
      unfold k_print. rewrite (content_Ok _ _ _ Cl). cbn [obind]. rewrite (mats_of_Ok _ _ _ Fl). cbn [obind]. eexists. split; [done|]. split; cbn; [done|done|]. by rewrite O.
    - destruct (pmat p x) as [v| |] eqn:Ex; try done. injection E as <-. destruct (sim_mat _ _ _ _ S Ex) as (a & Ea & Ca). rewrite Ea. cbn [obind].
      destruct (content_mat _ _ _ Ca) as [rc Eh]. unfold mat_of. rewrite Eh. cbn [obind]. eexists. split; [done|]. split; cbn; [done|done|]. by rewrite O.
    - destruct (p_env p !! x) as [[w|]|] eqn:Ex; try done. injection E as <-. destruct (sim_var _ _ _ _ S Ex) as (a & Ea & _ & Env). rewrite Ea. cbn [obind].
      destruct (WF_destroy (s_heap s) (roots (<[x := None]> (s_env s))) a) as (h' & Eh & W1 & S1).
      { eapply WF_perm; [|exact W]. intros b. by rewrite roots_kill. }
      rewrite Eh. cbn [obind]. eexists. split; [done|]. split; cbn; [done| |done].
      apply Forall2_same_length_lookup. rewrite !insert_length. split; [by eapply Forall2_length|]. intros i o u Hi Hw. destruct (decide (i = x)) as [->|Hne].
      + rewrite list_lookup_insert in Hi by (by eapply lookup_lt_Some). rewrite list_lookup_insert in Hw by (by eapply lookup_lt_Some). by simplify_eq.
      + pose proof Hi as Hi'. rewrite list_lookup_insert_ne in Hi by done. rewrite list_lookup_insert_ne in Hw by done. pose proof (Forall2_lookup_lr _ _ _ _ _ _ F Hi Hw) as Hr. destruct o as [c|], u as [w'|]; try done.
        eapply repr_shrink; [exact W1| |exact S1|exact Hr]. by eapply root_in.
  Qed.
  Lemma step_throw s p c : sim s p -> pstep p c = Throw -> step s c = Throw.
  Proof.
    intros S E. destruct c as [v|xs|x y|x idx|x|x|x|x]; cbn [pstep step] in E |- *; try done.
    - destruct (pmats p xs) as [vs| |] eqn:Ev; try done. exfalso. clear E. revert Ev. induction xs as [|x xs IH]; cbn; [done|]. unfold pmat.
      destruct (p_env p !! x) as [[[w|ws]|]|]; try done. cbn. destruct (pmats p xs); try done.
    - unfold plist in E. destruct (p_env p !! x) as [[[w|ws]|]|]; try done. cbn in E. unfold pmat in E. by destruct (p_env p !! y) as [[[w|ws']|]|].
    - destruct (plist p x) as [vs| |] eqn:Ex; [|unfold plist in Ex; by destruct (p_env p !! x) as [[[w|ws]|]|]|done]. cbn in E. destruct (vs !! idx) eqn:Ei; [done|].
      destruct (sim_list _ _ _ _ S Ex) as (l & els & El & Cl & Fl). rewrite El. cbn [obind]. unfold k_remove.
      destruct (WF_copy _ _ l els (sim_wf _ _ S) Cl) as (h1 & l' & E1 & W1 & C1 & _). rewrite E1. cbn [obind]. unfold l_remove. rewrite (content_Ok _ _ _ C1). cbn [obind].
      apply lookup_ge_None in Ei. rewrite decide_True; [done|]. rewrite (Forall2_length _ _ _ Fl). done.
    - unfold plist in E. by destruct (p_env p !! x) as [[[w|ws]|]|].
    - unfold plist in E. by destruct (p_env p !! x) as [[[w|ws]|]|].
    - unfold pmat in E. by destruct (p_env p !! x) as [[[w|ws]|]|].
    - by destruct (p_env p !! x) as [[w|]|].
  Qed.
  Lemma run_sim c : forall s p, sim s p -> (forall p', prun p c = Ok p' -> exists s', run s c = Ok s' /\ sim s' p') /\ (prun p c = Throw -> run s c = Throw).
  Proof.
    induction c as [|c cs IH]; intros s p S; cbn.
    - split; [|done]. intros p' [= <-]. by exists s.
    - destruct (pstep p c) as [p1| |] eqn:E; cbn; [| |done].
      + destruct (step_sim _ _ _ _ S E) as (s1 & E1 & S1). rewrite E1. cbn. by apply IH.
      + split; [done|]. intros _. by rewrite (step_throw _ _ _ S E).
  Qed.
  Lemma sim_init : sim (mkSt [] [] []) (mkP [] []).
  Proof. split; cbn; [|constructor|done]. split; [done|done|done]. Qed.

  (** For all scripts that use only variables they have not given up, with the types of their arguments right: what is shown is what the specification
      shows, an index outside the list is an error, and no memory is used after it has been freed. *)
  Theorem C92_sequences (c : list (stmt V)) p : prun (mkP [] []) c = Ok p -> exists s, run (mkSt [] [] []) c = Ok s /\ s_out s = p_out p.
  Proof. intros E. destruct (run_sim c _ _ sim_init) as [H _]. destruct (H _ E) as (s & Es & S). exists s. split; [done|by apply sim_out]. Qed.
  Theorem C92_remove_outside (c : list (stmt V)) : prun (mkP [] []) c = Throw -> run (mkSt [] [] []) c = Throw.
  Proof. by apply run_sim, sim_init. Qed.
  (** When all variables have been given up, nothing is left in memory. *)
  Theorem C92_no_leak (c : list (stmt V)) p s : prun (mkP [] []) c = Ok p -> Forall (fun w => w = None) (p_env p) -> run (mkSt [] [] []) c = Ok s ->
    Forall (fun o => o = None) (s_heap s).
  Proof.
    intros E Hd Es. destruct (run_sim c _ _ sim_init) as [H _]. destruct (H _ E) as (s' & Es' & [W F _]). rewrite Es in Es'. injection Es' as <-.
    assert (Hroots : roots (s_env s) = []).
    { clear -F Hd. induction F as [|o w env penv Hr _ IH]; [done|]. inversion Hd; subst. destruct o; [done|]. by apply IH. }
    rewrite Hroots in W. assert (Hnol : forall l els, content (s_heap s) l <> Some (inr els)).
    { intros l els Hl. assert (0 < rcof (s_heap s) l) as Hp by (apply (wf_pos _ _ W); by rewrite Hl). rewrite (wf_rc _ _ W) in Hp. change (cnt l []) with 0 in Hp.
      assert (exists k kels, content (s_heap s) k = Some (inr kels) /\ l ∈ kels) as (k & kels & Hk & Hin).
      { assert (He : 0 < eref l (s_heap s)) by lia. clear -He. induction (s_heap s) as [|o h IH]; cbn in He; [lia|].
        destruct (decide (0 < cnt l (oels o))) as [Hc|Hc].
        - exists 0, (oels o). apply count_occ_In in Hc. destruct o as [[rc v|rc els]|]; try done. split; [done|]. by apply elem_of_list_In.
        - destruct IH as (k & kels & Hk & Hin); [lia|]. by exists (S k), kels. }
      destruct (wf_els _ _ W _ _ _ Hk Hin) as [v Hv]. by rewrite Hv in Hl. }
    apply Forall_lookup. intros a o Ho. destruct o as [o|]; [|done]. exfalso. assert (Hlive : content (s_heap s) a <> None) by (by eapply rc_live).
    pose proof (wf_pos _ _ W a Hlive) as Hp. rewrite (wf_rc _ _ W) in Hp. change (cnt a []) with 0 in Hp.
    assert (eref a (s_heap s) = 0); [|lia]. clear -Hnol. induction (s_heap s) as [|o h IH]; [done|]. cbn. rewrite IH.
    - destruct o as [[rc v|rc els]|]; try done. exfalso. by apply (Hnol 0 els).
    - intros l els Hl. by apply (Hnol (S l) els).
  Qed.
End Proofs.

(** * Types *)
(** All elements are matrices of one value type that none of them hides, in dense representation: the list has this type, and so do its elements. *)
Theorem C92_types (ts : list nat) v : ts <> [] -> Forall (fun t => t = v) ts -> compile_create (map (fun t => (TMat (Some t) Dense, false)) ts) = Ok (v, Dense).
Proof.
  intros Hn Ha. unfold compile_create. rewrite !map_map. cbn. unfold infer_list. rewrite decide_False by (by destruct ts).
  assert (Hi : forall acc, acc = None \/ acc = Some v -> infer_elems acc (map (fun t => TMat (Some t) Dense) ts) = Ok (if decide (ts = []) then acc else Some v)).
  { clear Hn. induction Ha as [|t ts -> _ IH]; intros acc Hacc; cbn; [by rewrite decide_True|]. destruct Hacc as [->| ->].
    - rewrite IH by (by right). destruct ts; done.
    - rewrite decide_True by done. rewrite IH by (by right). destruct ts; done. }
  rewrite Hi by (by left). rewrite decide_False by done. cbn. destruct Ha as [|t ts -> _]; [done|]. cbn. by rewrite decide_True.
Qed.
(** Two value types, or something that is not a matrix, are errors. *)
Lemma infer_other acc ts : TOther ∈ ts -> infer_elems acc ts = Throw.
Proof.
  revert acc. induction ts as [|t ts IH]; intros acc Hin; [by apply elem_of_nil in Hin|]. cbn. destruct t as [|[w|] r|]; [| | |done].
  - apply IH. by inversion Hin.
  - assert (TOther ∈ ts) by (by inversion Hin). destruct acc; [case_decide; [by apply IH|done]|by apply IH].
  - apply IH. by inversion Hin.
Qed.
Theorem C92_not_matrix ts : TOther ∈ map fst ts -> compile_create ts = Throw.
Proof. intros H. unfold compile_create, infer_list. rewrite decide_False by (intros E; rewrite E in H; by apply elem_of_nil in H). by rewrite infer_other. Qed.
Lemma infer_known v w r : forall ts acc, acc = Some v \/ (exists r', TMat (Some v) r' ∈ ts) -> TMat (Some w) r ∈ ts -> v <> w -> infer_elems acc ts = Throw \/ infer_elems acc ts = UB.
Proof.
  induction ts as [|t ts IH]; intros acc Ha Hw Hne; [by apply elem_of_nil in Hw|]. cbn. destruct t as [|[u|] r2|]; [| | |by left].
  - apply IH; [|by inversion Hw|done]. destruct Ha as [->|(r' & Hr)]; [by left|right]. exists r'. by inversion Hr.
  - destruct acc as [a|].
    + case_decide as Eu; [|by left]. subst u. destruct (decide (a = v)) as [->|Hav].
      * apply IH; [by left| |done]. inversion Hw; simplify_eq; done.
      * destruct Ha as [Ha|(r' & Hr)]; [congruence|]. destruct (decide (a = w)) as [->|Haw].
        -- assert (Hin : TMat (Some v) r' ∈ ts) by (inversion Hr; simplify_eq; done). clear -Hin Hne. induction ts as [|t ts IH]; [by apply elem_of_nil in Hin|]. cbn.
           destruct t as [|[u|] r3|]; [| | |by left]; [apply IH; by inversion Hin| |apply IH; by inversion Hin]. case_decide as E; [subst u|by left]. apply IH. inversion Hin; simplify_eq; done.
        -- assert (Hin : TMat (Some w) r ∈ ts) by (inversion Hw; simplify_eq; done). clear -Hin Haw. induction ts as [|t ts IH]; [by apply elem_of_nil in Hin|]. cbn.
           destruct t as [|[u|] r3|]; [| | |by left]; [apply IH; by inversion Hin| |apply IH; by inversion Hin]. case_decide as E; [subst u|by left]. apply IH. inversion Hin; simplify_eq; done.
    + destruct Ha as [Ha|(r' & Hr)]; [done|]. destruct (decide (u = v)) as [->|Huv].
      * apply IH; [by left| |done]. inversion Hw; simplify_eq; done.
      * assert (Hin : TMat (Some v) r' ∈ ts) by (inversion Hr; simplify_eq; done). clear -Hin Huv. induction ts as [|t ts IH]; [by apply elem_of_nil in Hin|]. cbn.
        destruct t as [|[q|] r3|]; [| | |by left]; [apply IH; by inversion Hin| |apply IH; by inversion Hin]. case_decide as E; [subst q|by left]. apply IH. inversion Hin; simplify_eq; done.
  - apply IH; [|by inversion Hw|done]. destruct Ha as [->|(r' & Hr)]; [by left|right]. exists r'. by inversion Hr.
Qed.
Lemma infer_no_ub ts : forall acc, infer_elems acc ts <> UB.
Proof. induction ts as [|[|[v|] r|] ts IH]; intros acc; cbn; try done. destruct acc; [by case_decide|done]. Qed.
Theorem C92_two_types ts v w r r' : TMat (Some v) r ∈ map fst ts -> TMat (Some w) r' ∈ map fst ts -> v <> w -> compile_create ts = Throw.
Proof.
  intros Hv Hw Hne. unfold compile_create, infer_list. rewrite decide_False by (intros E; rewrite E in Hv; by apply elem_of_nil in Hv).
  destruct (infer_known v w r' (map fst ts) None) as [-> | E]; [right; by exists r|done|done|done|]. by apply infer_no_ub in E.
Qed.
(** Whatever is accepted: the first element is what the kernel takes the elements for, and every element whose value type is known has this value type. *)
Theorem C92_accepted els v r : compile_create els = Ok (v, r) -> r = Dense /\ (exists t b rest, els = (t, b) :: rest /\ select b t = TMat (Some v) Dense) /\
  forall t b, (t, b) ∈ els -> t = TUnk \/ exists r', t = TMat None r' \/ t = TMat (Some v) r'.
Proof.
  intros E. assert (Hfirst : r = Dense /\ exists t b rest, els = (t, b) :: rest /\ select b t = TMat (Some v) Dense).
  { unfold compile_create in E. destruct (infer_list _) as [lt| |] eqn:El; try done. cbn in E. unfold infer_list in El. case_decide; [done|].
    destruct (infer_elems _ _) as [[w|]| |]; try done. injection El as <-. destruct els as [|[t b] rest]; [done|]. cbn in E.
    destruct (select b t) as [|[u|] r2|] eqn:Es; try done. case_decide; [|done]. subst u. destruct r2; [|done]. injection E as <- <-. split; [done|]. by exists t, b, rest. }
  destruct Hfirst as [-> (t0 & b0 & rest & Hels & Hsel)]. split; [done|]. split; [by exists t0, b0, rest|]. intros t b Hin.
  assert (Hv : exists r0, TMat (Some v) r0 ∈ map fst els).
  { subst els. destruct t0 as [|u r0|]; [done| |done]. exists r0. assert (u = Some v) as -> by (cbn in Hsel; destruct b0; congruence). left. }
  destruct Hv as [r0 Hv]. assert (Ht : t ∈ map fst els) by (apply elem_of_list_fmap; by exists (t, b)). destruct t as [|[u|] r2|]; [by left| | |].
  - right. exists r2. right. destruct (decide (v = u)) as [->|Hne]; [done|]. by rewrite (C92_two_types _ _ _ _ _ Hv Ht Hne) in E.
  - right. exists r2. by left.
  - by rewrite (C92_not_matrix _ Ht) in E.
Qed.
(** FAILS if no element has a known value type: the compiler goes on with a type that is not there. *)
Theorem C92_unknown_refuted els : els <> [] -> Forall (fun e => fst e = TUnk \/ exists r, fst e = TMat None r) els -> compile_create els = UB.
Proof.
  intros Hn Hu. unfold compile_create, infer_list. rewrite decide_False by (by destruct els).
  assert (infer_elems None (map fst els) = Ok None) as ->; [|done]. clear Hn. induction Hu as [|[t b] els Ht _ IH]; [done|]. cbn in *. destruct Ht as [->|[r ->]]; done.
Qed.
(** FAILS with automatically selected representations: a sparse matrix after a dense one is taken for a dense one; a sparse matrix at the beginning is an error,
    although there are kernels for lists of sparse matrices. *)
Theorem C92_mixed_refuted v (sparse : list bool) : compile_create ((TMat (Some v) Dense, false) :: map (fun b => (TMat (Some v) Dense, b)) sparse) = Ok (v, Dense) /\
  (true ∈ sparse -> TMat (Some v) Sparse ∈ map (fun e => select (snd e) (fst e)) (map (fun b => (TMat (Some v) Dense, b)) sparse)).
Proof.
  split.
  - unfold compile_create, infer_list. cbn -[decide]. rewrite decide_False by done.
    assert (infer_elems (Some v) (map fst (map (fun b : bool => (TMat (Some v) Dense, b)) sparse)) = Ok (Some v)) as ->.
    { induction sparse as [|b sparse IH]; [done|]. cbn. by rewrite decide_True. }
    cbn. by rewrite decide_True.
  - intros H. apply elem_of_list_fmap. exists (TMat (Some v) Dense, true). split; [done|]. apply elem_of_list_fmap. by exists true.
Qed.
Lemma infer_some v ts : infer_elems (Some v) ts = Ok (Some v) \/ infer_elems (Some v) ts = Throw.
Proof. induction ts as [|[|[w|] r|] ts IH]; cbn; [by left|done| |done|by right]. case_decide; [done|by right]. Qed.
Theorem C92_sparse_refuted v r ts : compile_create ((TMat (Some v) r, true) :: ts) = Throw.
Proof.
  unfold compile_create, infer_list. rewrite decide_False by done. cbn [map fst infer_elems].
  destruct (infer_some v (map fst ts)) as [-> | ->]; [|done]. cbn. by rewrite decide_True.
Qed.
(** append accepts exactly the matrices of the type of the elements. *)
Theorem C92_append_types lt t r : compile_append lt t = Ok r <-> r = lt /\ t = TMat (Some (fst lt)) (snd lt).
Proof.
  split.
  - destruct lt as [v []], t as [|[w|] []|]; cbn; try done; case_decide; try done; intros [= <-]; by subst.
  - intros [-> ->]. destruct lt as [v []]; cbn; by rewrite decide_True.
Qed.

(** A script: the removed element, the list before and the list after, in any order of giving up the variables *)
Theorem C92_example : exists s, run (mkSt [] [] []) [SMat 5; SMat 7; SCreate [0; 1; 0]; SDec 0; SDec 1; SAppend 2 1] = UB /\
  run (mkSt [] [] []) [SMat 5; SMat 7; SCreate [0; 1; 0]; SDec 0; SRemove 2 1; SAppend 3 4; SDec 3; SPrint 2; SDec 2; SPrint 5; SLength 5; SShow 4; SDec 1; SDec 4; SDec 5] = Ok s /\
  s_out s = [ShList [5; 7; 5]; ShList [5; 5; 7]; ShLength 3; ShMat 7] /\ Forall (fun o => o = None) (s_heap s).
Proof. eexists. split_and!; [done|vm_compute; done|done|]. repeat constructor. Qed.
Print Assumptions C92_sequences. Print Assumptions C92_remove_outside. Print Assumptions C92_no_leak. Print Assumptions C92_types. Print Assumptions C92_mixed_refuted. Print Assumptions C92_accepted.
