(** * The pass keeps what all functions compute (proofs for C76) *)
From stdpp Require Import base numbers list gmap.
From Verif Require Import CppBase UdfModel UdfSpec UdfProofs.

Section inv.
  Context {val op : Type}.
  Context (vty : val → ty) (truth : val → option bool) (fold : op → list val → option val) (opty : op → list ty → ty).
  Context (opsem : op → list val → option val).
  Context (elems : val → option (list val)) (rebuild : val → list val → option val).
  Context (Hfold : ∀ o cs c, fold o cs = Some c → opsem o cs = Some c).
  Context (ipa : bool).
  Notation ev := (ev truth opsem elems rebuild).
  Notation app := (app truth opsem elems rebuild).
  Notation simp := (simp truth fold).
  Notation typ := (typ vty opty).
  Notation infer_fn := (infer_fn vty truth fold opty).
  Notation create_spec := (create_spec vty truth fold opty ipa).
  Notation create_or_reuse := (create_or_reuse vty truth fold opty ipa).
  Notation step_call := (step_call vty truth fold opty ipa).
  Notation step_map := (step_map vty truth fold opty ipa).
  Notation spec_fn := (spec_fn vty truth fold opty ipa).
  Notation run_entry := (run_entry vty truth fold opty ipa).
  Notation run_pass := (run_pass vty truth fold opty ipa).
  Notation exp := (exp val op).
  Notation func := (func val op).
  Notation st := (st val op).
  Implicit Types (e : exp) (es : list exp) (F G : func) (s : st).

  (** The original program, and the calls between its definitions. *)
  Context (M0 : gmap name func) (E : nat → nat → Prop).

  (** The ghost state: the constants that have been put in for parameters of specialized functions. *)
  Definition ghost := name → nat → option val.
  Definition fit (c : nat → option val) (vs : list val) : Prop := ∀ i v, c i = Some v → vs !! i = Some v.
  Definition efit (c : nat → option val) es : Prop := ∀ i v, c i = Some v → es !! i = Some (Cst v).

  Record Inv (K : ghost) s : Prop := {
    i_app : ∀ m F d vs, fns s !! m = Some F → fit (K m) vs → app (fns s) d m vs = app M0 d (m.1, []) vs;
    i_call : ∀ m F k es, fns s !! m = Some F → (k, es) ∈ calls_of (body F) →
               ∃ (g : name) (t : ty), sites F !! k = Some (g, t) /\ is_Some (fns s !! g) /\ E m.1 g.1 /\ efit (K g) es;
    i_map : ∀ m F k e, fns s !! m = Some F → (k, e) ∈ maps_of (body F) →
               ∃ (g : name) (t : ty), sites F !! k = Some (g, t) /\ is_Some (fns s !! g) /\ E m.1 g.1 /\ ∀ i, K g i = None;
    i_nodup : ∀ m F, fns s !! m = Some F → NoDup (ids (body F));
    i_vers : ∀ g v, (g, v) ∈ versions s → is_Some (fns s !! g) /\ is_Some (fns s !! v) /\ v.1 = g.1 /\ ∀ i, K v i = K g i;
    i_fresh : ∀ m, is_Some (fns s !! m) → Forall (fun x => x < next s) m.2;
    i_orig : ∀ m, m.2 = [] → ∀ i, K m i = None }.

  Lemma Inv_same K s s' : fns s' = fns s → versions s' = versions s → next s' = next s → Inv K s → Inv K s'.
  Proof. intros H1 H2 H3 []. constructor; rewrite ?H1, ?H2, ?H3; done. Qed.

  Lemma mapM_lookup_ {A B} (f : A → option B) l k i x : mapM f l = Some k → l !! i = Some x → ∃ y, f x = Some y /\ k !! i = Some y.
  Proof. intros H Hi. apply mapM_Some in H. by eapply Forall2_lookup_l in H as (y & Hy & Hf); [eauto|done]. Qed.
  Lemma efit_fit c call args S es vs : efit c es → mapM (ev call args S) es = Some vs → fit c vs.
  Proof.
    intros He Hm i v Hi. apply He in Hi. destruct (mapM_lookup_ _ _ _ _ _ Hm Hi) as (y & Hy & Hl). cbn in Hy. by injection Hy as ->.
  Qed.
  Lemma call_ids k es e : (k, es) ∈ calls_of e → k ∈ ids e.
  Proof. intros H. unfold ids. apply elem_of_app. left. apply elem_of_list_fmap. by exists (k, es). Qed.
  Lemma map_ids k e1 e : (k, e1) ∈ maps_of e → k ∈ ids e.
  Proof. intros H. unfold ids. apply elem_of_app. right. apply elem_of_list_fmap. by exists (k, e1). Qed.
  Lemma NoDup_key {A B} (l : list (A * B)) k x y : NoDup (l.*1) → (k, x) ∈ l → (k, y) ∈ l → x = y.
  Proof.
    intros Hn Hx Hy. induction l as [|[k' z] l IH]; [by apply elem_of_nil in Hx|]. cbn in Hn. apply NoDup_cons in Hn as [Hn1 Hn2].
    apply elem_of_cons in Hx as [Hx|Hx]; apply elem_of_cons in Hy as [Hy|Hy].
    - congruence.
    - exfalso. injection Hx as <- <-. apply Hn1. apply elem_of_list_fmap. by exists (k, y).
    - exfalso. injection Hy as <- <-. apply Hn1. apply elem_of_list_fmap. by exists (k, x).
    - by apply IH.
  Qed.
  Lemma call_unique e k es es' : NoDup (ids e) → (k, es) ∈ calls_of e → (k, es') ∈ calls_of e → es = es'.
  Proof. unfold ids. intros (H & _ & _)%NoDup_app. by apply NoDup_key. Qed.
  Lemma map_unique e k e1 e2 : NoDup (ids e) → (k, e1) ∈ maps_of e → (k, e2) ∈ maps_of e → e1 = e2.
  Proof. unfold ids. intros (_ & _ & H)%NoDup_app. by apply NoDup_key. Qed.
  Lemma call_map_disjoint e k es e1 : NoDup (ids e) → (k, es) ∈ calls_of e → (k, e1) ∈ maps_of e → False.
  Proof.
    unfold ids. intros (_ & H & _)%NoDup_app Hc Hm. eapply H; apply elem_of_list_fmap; [by exists (k, es)|by exists (k, e1)].
  Qed.

  (** The value of an expression of a function of the state, with two ways of calling that agree where it calls. *)
  Lemma ev_callees K s m F call call' args :
    Inv K s → fns s !! m = Some F → (∀ g vs, is_Some (fns s !! g) → call g vs = call' g vs) →
    ev call args (sites F) (body F) = ev call' args (sites F) (body F).
  Proof.
    intros HI HF Hc. apply ev_sites.
    - intros k es vs Hk _. destruct (i_call _ _ HI _ _ _ _ HF Hk) as (g & t & -> & Hg & _). cbn. by apply Hc.
    - intros k e x Hk. destruct (i_map _ _ HI _ _ _ _ HF Hk) as (g & t & -> & Hg & _). cbn. by apply Hc.
    - done.
  Qed.

  (** ** A function whose body is simplified. *)
  Lemma Inv_infer K s n F : Inv K s → fns s !! n = Some F → Inv K (set_fn n (infer_fn F) s).
  Proof.
    intros HI HF.
    assert (Happ : ∀ d m vs, app (<[n := infer_fn F]> (fns s)) d m vs = app (fns s) d m vs).
    { induction d as [|d IH]; intros m vs; [done|]. rewrite !app_S. destruct (decide (m = n)) as [->|Hn].
      - rewrite lookup_insert, HF. cbn [mbind option_bind UdfModel.infer_fn sites body]. rewrite simp_ev by done. by apply ev_ext.
      - rewrite lookup_insert_ne by done. destruct (fns s !! m); [|done]. cbn. by apply ev_ext. }
    assert (Hdom : ∀ g, is_Some (fns s !! g) → is_Some (<[n := infer_fn F]> (fns s) !! g)).
    { intros g Hg. destruct (decide (g = n)) as [->|]; [rewrite lookup_insert; eauto|by rewrite lookup_insert_ne]. }
    destruct HI. constructor; cbn [fns versions next set_fn]; try done.
    - intros m G d vs HG Hfit. rewrite Happ. destruct (decide (m = n)) as [->|Hn]; [by eapply i_app0|].
      rewrite lookup_insert_ne in HG by done. by eapply i_app0.
    - intros m G k es HG Hk. destruct (decide (m = n)) as [->|Hn].
      + rewrite lookup_insert in HG. injection HG as <-. cbn [UdfModel.infer_fn body sites] in Hk |- *.
        apply calls_simp_in in Hk as (es0 & Hk & ->). destruct (i_call0 _ _ _ _ HF Hk) as (g & t & Hs & Hg & HE & He).
        exists g, t. split_and!; eauto. intros i v Hi. rewrite list_lookup_fmap, (He i v Hi). done.
      + rewrite lookup_insert_ne in HG by done. destruct (i_call0 _ _ _ _ HG Hk) as (g & t & Hs & Hg & HE & He). exists g, t. eauto.
    - intros m G k e HG Hk. destruct (decide (m = n)) as [->|Hn].
      + rewrite lookup_insert in HG. injection HG as <-. cbn [UdfModel.infer_fn body sites] in Hk |- *.
        apply maps_simp_in in Hk as (e0 & Hk & ->). destruct (i_map0 _ _ _ _ HF Hk) as (g & t & Hs & Hg & HE & He).
        exists g, t. split_and!; eauto.
      + rewrite lookup_insert_ne in HG by done. destruct (i_map0 _ _ _ _ HG Hk) as (g & t & Hs & Hg & HE & He). exists g, t. eauto.
    - intros m G HG. destruct (decide (m = n)) as [->|Hn].
      + rewrite lookup_insert in HG. injection HG as <-. cbn [UdfModel.infer_fn body]. apply ids_simp. eauto.
      + rewrite lookup_insert_ne in HG by done. eauto.
    - intros g v Hgv. destruct (i_vers0 _ _ Hgv) as (H0 & H1 & H2 & H3). split_and!; eauto.
    - intros m Hm. apply i_fresh0. destruct (decide (m = n)) as [->|Hn]; [by exists F|]. by rewrite lookup_insert_ne in Hm.
  Qed.

  (** ** A new function made of one that exists. *)
  Definition add_consts (c : nat → option val) (cs : list (option val)) : nat → option val :=
    fun i => match cs !! i with Some (Some v) => Some v | _ => c i end.
  Definition upd (K : ghost) n c : ghost := fun m => if decide (m = n) then c else K m.
  Lemma const_of_efit es : efit (add_consts (fun _ => None) (const_of <$> es)) es.
  Proof.
    intros i v. unfold add_consts. rewrite list_lookup_fmap. destruct (es !! i) as [e|]; cbn; [|done].
    destruct e; cbn; try done. by intros [= ->].
  Qed.
  Lemma Inv_create K s g G tys es s1 n1 :
    Inv K s → fns s !! g = Some G → efit (K g) es → create_spec s g G tys es = (s1, n1) →
    ∃ K', Inv K' s1 /\ (∀ m, is_Some (fns s !! m) → ∀ i, K' m i = K m i) /\
      fns s !! n1 = None /\ n1.1 = g.1 /\ efit (K' n1) es /\ (∀ m, m ≠ n1 → fns s1 !! m = fns s !! m) /\
      (es = [] → ∀ i, K' n1 i = K g i) /\
      (∃ N, fns s1 !! n1 = Some N /\ params N = tys).
  Proof.
    intros HI HG He. unfold UdfModel.create_spec. set (n := (g.1, g.2 ++ [next s])). set (ins := ipa && negb (is_untyped G)).
    set (cs := if ins then const_of <$> es else []). set (F := infer_fn (Func tys (res G) (sites G) (subst cs (body G)))).
    intros [= <- <-]. assert (Hfresh : fns s !! n = None).
    { destruct (fns s !! n) as [X|] eqn:En; [|done]. exfalso. pose proof (i_fresh _ _ HI n (ex_intro _ _ En)) as Hf. cbn in Hf.
      apply Forall_app in Hf as [_ Hf]. apply Forall_inv in Hf. lia. }
    assert (Hcs : ∀ i v, cs !! i = Some (Some v) → es !! i = Some (Cst v)).
    { intros i v. subst cs. destruct ins; [|done]. rewrite list_lookup_fmap. destruct (es !! i) as [e|]; cbn; [|done]. destruct e; cbn; try done. by intros [= ->]. }
    exists (upd K n (add_consts (K g) cs)).
    assert (HK1 : upd K n (add_consts (K g) cs) n = add_consts (K g) cs) by (unfold upd; by rewrite decide_True).
    assert (HK2 : ∀ m, is_Some (fns s !! m) → upd K n (add_consts (K g) cs) m = K m).
    { intros m [X Hm]. unfold upd. rewrite decide_False; [done|]. intros ->. by rewrite Hfresh in Hm. }
    assert (Hadd : efit (add_consts (K g) cs) es).
    { intros i v. unfold add_consts. destruct (cs !! i) as [[w|]|] eqn:Ei; intros Hv; [|by apply He|by apply He]. injection Hv as ->. by apply Hcs. }
    assert (Happ : ∀ d m vs, is_Some (fns s !! m) → app (<[n := F]> (fns s)) d m vs = app (fns s) d m vs).
    { induction d as [|d IH]; intros m vs [X Hm]; [done|]. rewrite !app_S. rewrite lookup_insert_ne by (intros ->; by rewrite Hfresh in Hm).
      rewrite Hm. cbn. by eapply ev_callees. }
    assert (Hdom : ∀ h, is_Some (fns s !! h) → is_Some (<[n := F]> (fns s) !! h)).
    { intros h Hh. destruct (decide (h = n)) as [->|]; [rewrite lookup_insert; eauto|by rewrite lookup_insert_ne]. }
    assert (Hnapp : ∀ d vs, fit (add_consts (K g) cs) vs → app (<[n := F]> (fns s)) d n vs = app (fns s) d g vs).
    { intros [|d] vs Hfit; [done|]. rewrite !app_S, lookup_insert, HG. cbn [mbind option_bind]. subst F. cbn [UdfModel.infer_fn sites body].
      rewrite simp_ev by done. rewrite subst_ev; [eapply ev_callees; [done..|]; intros h vs' Hh; by apply Happ|].
      intros i v Hi. apply Hfit. unfold add_consts. by rewrite Hi. }
    assert (Hgfit : ∀ vs, fit (add_consts (K g) cs) vs → fit (K g) vs).
    { intros vs Hf i v Hi. destruct (cs !! i) as [[w|]|] eqn:Ei.
      - pose proof (Hcs _ _ Ei) as Hc. pose proof (He _ _ Hi) as Hc'. rewrite Hc in Hc'. injection Hc' as ->. apply Hf. unfold add_consts. by rewrite Ei.
      - apply Hf. unfold add_consts. by rewrite Ei.
      - apply Hf. unfold add_consts. by rewrite Ei. }
    assert (Hnoc : ins && existsb is_const es = false → ∀ i, add_consts (K g) cs i = K g i).
    { intros Hi i. unfold add_consts. destruct (cs !! i) as [[w|]|] eqn:Ei; try done. exfalso. pose proof (Hcs _ _ Ei) as Hc.
      subst cs. destruct ins; [|done]. cbn in Hi. apply not_true_iff_false in Hi. apply Hi. apply existsb_exists. exists (Cst w). split; [|done]. apply elem_of_list_In. by eapply elem_of_list_lookup_2. }
    split_and!.
    - destruct HI. constructor; cbn [fns versions next].
      + intros m X d vs HX Hfit. destruct (decide (m = n)) as [->|Hn].
        * rewrite HK1 in Hfit. rewrite Hnapp by done. cbn [n fst]. eapply i_app0; [done|]. by apply Hgfit.
        * rewrite lookup_insert_ne in HX by done. rewrite HK2 in Hfit by eauto. rewrite Happ by eauto. by eapply i_app0.
      + intros m X k es' HX Hk. destruct (decide (m = n)) as [->|Hn].
        * rewrite lookup_insert in HX. injection HX as <-. subst F. cbn [UdfModel.infer_fn body sites] in Hk |- *.
          apply calls_simp_in in Hk as (es0 & Hk & ->). rewrite calls_subst in Hk. apply elem_of_list_fmap in Hk as ([k1 es1] & [= -> ->] & Hk). cbn.
          destruct (i_call0 _ _ _ _ HG Hk) as (h & t & Hs & Hh & HE & Hef). exists h, t. rewrite HK2 by done. split_and!; eauto.
          intros i v Hi. rewrite !list_lookup_fmap, (Hef i v Hi). done.
        * rewrite lookup_insert_ne in HX by done. destruct (i_call0 _ _ _ _ HX Hk) as (h & t & Hs & Hh & HE & Hef). exists h, t. rewrite HK2 by done. eauto.
      + intros m X k e HX Hk. destruct (decide (m = n)) as [->|Hn].
        * rewrite lookup_insert in HX. injection HX as <-. subst F. cbn [UdfModel.infer_fn body sites] in Hk |- *.
          apply maps_simp_in in Hk as (e0 & Hk & ->). rewrite maps_subst in Hk. apply elem_of_list_fmap in Hk as ([k1 e1] & [= -> ->] & Hk). cbn.
          destruct (i_map0 _ _ _ _ HG Hk) as (h & t & Hs & Hh & HE & Hef). exists h, t. rewrite HK2 by done. split_and!; eauto.
        * rewrite lookup_insert_ne in HX by done. destruct (i_map0 _ _ _ _ HX Hk) as (h & t & Hs & Hh & HE & Hef). exists h, t. rewrite HK2 by done. eauto.
      + intros m X HX. destruct (decide (m = n)) as [->|Hn].
        * rewrite lookup_insert in HX. injection HX as <-. subst F. cbn [UdfModel.infer_fn body]. apply ids_simp. rewrite ids_subst. eauto.
        * rewrite lookup_insert_ne in HX by done. eauto.
      + intros h v Hv.
        assert (Hold : (h, v) ∈ versions s → is_Some (<[n := F]> (fns s) !! h) /\ is_Some (<[n := F]> (fns s) !! v) /\ v.1 = h.1 /\
                         ∀ i, upd K n (add_consts (K g) cs) v i = upd K n (add_consts (K g) cs) h i).
        { intros Hin. destruct (i_vers0 _ _ Hin) as (H0 & H1 & H2 & H3). split_and!; eauto. intros i. rewrite !HK2 by done. by apply H3. }
        destruct (ins && existsb is_const es) eqn:Ei; [by apply Hold|].
        apply elem_of_app in Hv as [Hv|Hv]; [by apply Hold|]. apply elem_of_list_singleton in Hv. injection Hv as -> ->.
        split_and!; [by apply Hdom; eauto|rewrite lookup_insert; eauto|done|]. intros i. rewrite HK1, HK2 by eauto. by apply Hnoc.
      + intros m Hm. destruct (decide (m = n)) as [->|Hn].
        * cbn [n snd]. apply Forall_app. split; [|by apply Forall_singleton; lia].
          eapply Forall_impl; [apply i_fresh0; eauto|]. cbn. lia.
        * rewrite lookup_insert_ne in Hm by done. eapply Forall_impl; [by apply i_fresh0|]. cbn. lia.
      + intros m Hm i. unfold upd. case_decide as Hd; [|by apply i_orig0]. subst m. cbn in Hm. by destruct g.2.
    - intros m Hm i. by rewrite HK2.
    - done.
    - done.
    - by rewrite HK1.
    - intros m Hm. cbn [fns]. by rewrite lookup_insert_ne.
    - intros -> i. rewrite HK1. apply Hnoc. by rewrite andb_false_r.
    - exists F. cbn [fns]. by rewrite lookup_insert.
  Qed.

  (** ** A call or a map of another function that computes the same. *)
  Lemma Inv_retarget K s n F F' k g t n1 t1 :
    Inv K s → fns s !! n = Some F → sites F !! k = Some (g, t) → is_Some (fns s !! n1) → n1.1 = g.1 →
    ((∃ es, (k, es) ∈ calls_of (body F) /\ efit (K n1) es) \/ (∃ e, (k, e) ∈ maps_of (body F) /\ ∀ i, K n1 i = None)) →
    body F' = body F → sites F' = <[k := (n1, t1)]> (sites F) →
    Inv K (set_fn n F' s).
  Proof.
    intros HI HF Hk [N HN] Hor Huse Hb HS.
    assert (Hlen : k < length (sites F)) by by eapply lookup_lt_Some.
    assert (Hk' : sites F' !! k = Some (n1, t1)) by (rewrite HS; by apply list_lookup_insert).
    assert (Hne : ∀ k', k' ≠ k → sites F' !! k' = sites F !! k') by (intros k' Hk''; rewrite HS; by apply list_lookup_insert_ne).
    assert (Happ : ∀ d m vs, app (<[n := F']> (fns s)) d m vs = app (fns s) d m vs).
    { induction d as [|d IH]; intros m vs; [done|]. rewrite !app_S. destruct (decide (m = n)) as [->|Hn].
      - rewrite lookup_insert, HF. cbn [mbind option_bind]. rewrite Hb. symmetry. apply ev_sites.
        + intros k' es vs' Hc Hm. destruct (decide (k' = k)) as [->|Hkk].
          * rewrite Hk, Hk'. cbn. rewrite IH. destruct (i_call _ _ HI _ _ _ _ HF Hc) as (g' & t' & Hg' & [G HG] & _ & He).
            rewrite Hk in Hg'. injection Hg' as <- <-. rewrite (i_app _ _ HI _ _ d vs' HG) by by eapply efit_fit.
            destruct Huse as [(es' & Hc' & He')|(e & Hm' & _)].
            -- pose proof (call_unique _ _ _ _ (i_nodup _ _ HI _ _ HF) Hc Hc') as <-.
               rewrite (i_app _ _ HI _ _ d vs' HN) by by eapply efit_fit. by rewrite Hor.
            -- exfalso. eapply call_map_disjoint; [exact (i_nodup _ _ HI _ _ HF)|eauto|eauto].
          * rewrite Hne by done. destruct (sites F !! k') as [[g' t']|]; [|done]. cbn. by rewrite IH.
        + intros k' e x Hc. destruct (decide (k' = k)) as [->|Hkk].
          * rewrite Hk, Hk'. cbn. rewrite IH. destruct (i_map _ _ HI _ _ _ _ HF Hc) as (g' & t' & Hg' & [G HG] & _ & He).
            rewrite Hk in Hg'. injection Hg' as <- <-. rewrite (i_app _ _ HI _ _ d [x] HG) by (intros i v; by rewrite He).
            destruct Huse as [(es' & Hc' & _)|(e' & Hm' & He')].
            -- exfalso. eapply call_map_disjoint; [exact (i_nodup _ _ HI _ _ HF)|eauto|eauto].
            -- rewrite (i_app _ _ HI _ _ d [x] HN) by (intros i v; by rewrite He'). by rewrite Hor.
          * rewrite Hne by done. destruct (sites F !! k') as [[g' t']|]; [|done]. cbn. by rewrite IH.
        + intros k' _. destruct (decide (k' = k)) as [->|Hkk]; [rewrite Hk, Hk'; split; eauto|by rewrite Hne].
      - rewrite lookup_insert_ne by done. destruct (fns s !! m); [|done]. cbn. by apply ev_ext. }
    assert (Hdom : ∀ h, is_Some (fns s !! h) → is_Some (<[n := F']> (fns s) !! h)).
    { intros h Hh. destruct (decide (h = n)) as [->|]; [rewrite lookup_insert; eauto|by rewrite lookup_insert_ne]. }
    destruct HI. constructor; cbn [fns versions next set_fn]; try done.
    - intros m X d vs HX Hfit. rewrite Happ. destruct (decide (m = n)) as [->|Hn]; [by eapply i_app0|].
      rewrite lookup_insert_ne in HX by done. by eapply i_app0.
    - intros m X k' es HX Hc. destruct (decide (m = n)) as [->|Hn].
      + rewrite lookup_insert in HX. injection HX as <-. rewrite Hb in Hc. destruct (i_call0 _ _ _ _ HF Hc) as (h & th & Hs & Hh & HE & He).
        destruct (decide (k' = k)) as [->|Hkk].
        * exists n1, t1. rewrite Hk in Hs. injection Hs as <- <-. rewrite Hor. split_and!; eauto. destruct Huse as [(es' & Hc' & He')|(e & Hm' & _)].
          -- pose proof (call_unique _ _ _ _ (i_nodup0 _ _ HF) Hc Hc') as <-. done.
          -- exfalso. eapply call_map_disjoint; [exact (i_nodup0 _ _ HF)|eauto|eauto].
        * exists h, th. rewrite Hne by done. split_and!; eauto.
      + rewrite lookup_insert_ne in HX by done. destruct (i_call0 _ _ _ _ HX Hc) as (h & th & Hs & Hh & HE & He). exists h, th. split_and!; eauto.
    - intros m X k' e HX Hc. destruct (decide (m = n)) as [->|Hn].
      + rewrite lookup_insert in HX. injection HX as <-. rewrite Hb in Hc. destruct (i_map0 _ _ _ _ HF Hc) as (h & th & Hs & Hh & HE & He).
        destruct (decide (k' = k)) as [->|Hkk].
        * exists n1, t1. rewrite Hk in Hs. injection Hs as <- <-. rewrite Hor. split_and!; eauto. destruct Huse as [(es' & Hc' & He')|(e' & Hm' & He')]; [|done].
          exfalso. eapply call_map_disjoint; [exact (i_nodup0 _ _ HF)|eauto|eauto].
        * exists h, th. rewrite Hne by done. split_and!; eauto.
      + rewrite lookup_insert_ne in HX by done. destruct (i_map0 _ _ _ _ HX Hc) as (h & th & Hs & Hh & HE & He). exists h, th. split_and!; eauto.
    - intros m X HX. destruct (decide (m = n)) as [->|Hn].
      + rewrite lookup_insert in HX. injection HX as <-. rewrite Hb. eauto.
      + rewrite lookup_insert_ne in HX by done. eauto.
    - intros h v Hgv. destruct (i_vers0 _ _ Hgv) as (H0 & H1 & H2 & H3). split_and!; eauto.
    - intros m Hm. apply i_fresh0. destruct (decide (m = n)) as [->|Hn]; [by exists F|]. by rewrite lookup_insert_ne in Hm.
  Qed.

  (** ** The steps of the pass *)
  (** What no step below an entry function changes: bodies and parameters. *)
  Definition Ext s s' : Prop := ∀ m F, fns s !! m = Some F → ∃ F', fns s' !! m = Some F' /\ body F' = body F /\ params F' = params F.
  Lemma Ext_refl s : Ext s s.
  Proof. intros m F HF. eauto. Qed.
  Lemma Ext_same s s' : fns s' = fns s → Ext s s'.
  Proof. intros H m F HF. rewrite H. eauto. Qed.
  Lemma Ext_trans s1 s2 s3 : Ext s1 s2 → Ext s2 s3 → Ext s1 s3.
  Proof. intros H1 H2 m F HF. destruct (H1 _ _ HF) as (F1 & HF1 & ? & ?). destruct (H2 _ _ HF1) as (F2 & HF2 & ? & ?). exists F2. split_and!; congruence. Qed.
  Lemma Ext_set s n F F' : fns s !! n = Some F → body F' = body F → params F' = params F → Ext s (set_fn n F' s).
  Proof.
    intros HF Hb Hp m X HX. cbn [fns set_fn]. destruct (decide (m = n)) as [->|Hn].
    - rewrite lookup_insert. rewrite HF in HX. injection HX as <-. eauto.
    - rewrite lookup_insert_ne by done. eauto.
  Qed.
  Lemma find_version_in (M : gmap name func) g tys vs v : find_version M g tys vs = Some v → (g, v) ∈ vs /\ ∃ V, M !! v = Some V /\ match_types (params V) tys = true.
  Proof.
    induction vs as [|[h n] vs IH]; [done|]. cbn [find_version]. case_bool_decide as Hh; cbn [andb].
    - destruct (M !! n) as [V|] eqn:EV.
      + destruct (match_types (params V) tys) eqn:Em.
        * intros [= ->]. subst h. split; [by left|]. eauto.
        * intros H. destruct (IH H) as [H1 H2]. split; [by right|done].
      + intros H. destruct (IH H) as [H1 H2]. split; [by right|done].
    - intros H. destruct (IH H) as [H1 H2]. split; [by right|done].
  Qed.
  Lemma Inv_cor K s g G tys es s1 n1 :
    Inv K s → fns s !! g = Some G → efit (K g) es → create_or_reuse s g G tys es = Some (s1, n1) →
    ∃ K', Inv K' s1 /\ Ext s s1 /\ (∀ m, is_Some (fns s !! m) → fns s1 !! m = fns s !! m /\ ∀ i, K' m i = K m i) /\
      n1.1 = g.1 /\ efit (K' n1) es /\ (es = [] → ∀ i, K' n1 i = K g i) /\ is_Some (fns s1 !! n1).
  Proof.
    intros HI HG He. unfold UdfModel.create_or_reuse. destruct (try_reuse ipa s g tys es) as [v|] eqn:Er.
    - intros [= <- <-]. unfold try_reuse in Er. destruct (ipa && existsb is_const es); [done|].
      apply find_version_in in Er as (Hv & V & HV & _). destruct (i_vers _ _ HI _ _ Hv) as (_ & Hs & Ho & HK).
      exists K. split_and!; eauto.
      + by eapply Inv_same; [..|done].
      + by apply Ext_same.
      + intros i x. rewrite HK. apply He.
    - destruct (spec_types (params G) tys) as [tys'|] eqn:Et; cbn [mbind option_bind]; [|done].
      destruct (create_spec s g G tys' es) as [s2 n2] eqn:Ec. cbn. intros [= <- <-].
      destruct (Inv_create _ _ _ _ _ _ _ _ HI HG He Ec) as (K' & HI' & HK & Hfr & Ho & He' & Hfn & Hnil & N & HN & _).
      assert (Hsame : ∀ m, is_Some (fns s !! m) → fns s2 !! m = fns s !! m).
      { intros m [X Hm]. apply Hfn. intros ->. by rewrite Hfr in Hm. }
      exists K'. split_and!; eauto.
      + by eapply Inv_same; [..|done].
      + intros m X HX. exists X. cbn. rewrite Hsame by eauto. done.
  Qed.

  Lemma pbind_ok (r : pres val op) k s : pbind r k = POk s → ∃ s1, r = POk s1 /\ k s1 = POk s.
  Proof. destruct r; cbn; [eauto|done..]. Qed.
  Lemma pfold_inv {X} (I : st → Prop) (f : X → st → pres val op) l s s' :
    (∀ x s s', x ∈ l → I s → f x s = POk s' → I s') → I s → pfold f l s = POk s' → I s'.
  Proof.
    revert s. induction l as [|x l IH]; intros s Hf HI; cbn.
    - by intros [= <-].
    - intros (s1 & H1 & H2)%pbind_ok. eapply IH; [|eapply Hf; [left|exact HI|exact H1]|exact H2].
      intros y s2 s3 Hy. apply Hf. by right.
  Qed.

  (** What is kept from a state to a later one. *)
  Definition Keeps s s' : Prop := (∃ K, Inv K s') /\ Ext s s'.
  Definition rec_keeps (rec : name → st → pres val op) : Prop := ∀ n s s', (∃ K, Inv K s) → rec n s = POk s' → Keeps s s'.
  Lemma step_call_keeps rec n F k es s s' :
    rec_keeps rec → (∃ K, Inv K s) → fns s !! n = Some F → (k, es) ∈ calls_of (body F) → step_call rec n (k, es) s = POk s' → Keeps s s'.
  Proof.
    intros Hrec [K HI] HF Hk. unfold UdfModel.step_call. cbn [fst snd]. rewrite HF.
    destruct (i_call _ _ HI _ _ _ _ HF Hk) as (g & t & Hs & [G HG] & HE & He). rewrite Hs, HG.
    destruct (is_template G || existsb is_const es).
    - destruct (create_or_reuse s g G _ es) as [[s1 n1]|] eqn:Ec; [|done]. destruct (fns s1 !! n1) as [N|] eqn:EN; [|done].
      intros (s2 & H2 & [= <-])%pbind_ok.
      destruct (Inv_cor _ _ _ _ _ _ _ _ HI HG He Ec) as (K' & HI' & HX & Hsame & Ho & He' & _ & _).
      assert (HF1 : fns s1 !! n = Some F) by (rewrite (proj1 (Hsame n (ex_intro _ _ HF))); done).
      set (F' := if decide (t = res N) then _ else _) in H2.
      assert (HbF : body F' = body F /\ params F' = params F /\ sites F' = <[k := (n1, res N)]> (sites F)) by (subst F'; by case_decide).
      destruct HbF as (Hb & Hp & HS).
      assert (HI2 : Inv K' (set_fn n F' s1)).
      { eapply Inv_retarget; [exact HI'|exact HF1|exact Hs|exists N; exact EN|exact Ho|left; eauto|done|exact HS]. }
      destruct (Hrec _ _ _ (ex_intro _ _ HI2) H2) as ([K2 HI3] & HX2).
      split; [exists K2; by eapply Inv_same; [..|exact HI3]|].
      eapply Ext_trans; [exact HX|]. eapply Ext_trans; [by eapply Ext_set|]. eapply Ext_trans; [exact HX2|]. by apply Ext_same.
    - intros (s2 & H2 & [= <-])%pbind_ok. destruct (Hrec _ _ _ (ex_intro _ _ HI) H2) as ([K2 HI3] & HX2).
      split; [exists K2; by eapply Inv_same; [..|exact HI3]|]. eapply Ext_trans; [exact HX2|]. by apply Ext_same.
  Qed.
  Lemma step_map_keeps rec n F k e s s' :
    rec_keeps rec → (∃ K, Inv K s) → fns s !! n = Some F → (k, e) ∈ maps_of (body F) → step_map rec n (k, e) s = POk s' → Keeps s s'.
  Proof.
    intros Hrec [K HI] HF Hk. unfold UdfModel.step_map. cbn [fst snd]. rewrite HF.
    destruct (i_map _ _ HI _ _ _ _ HF Hk) as (g & t & Hs & [G HG] & HE & He). rewrite Hs, HG.
    destruct (is_template G).
    - destruct (typ (params F) (sites F) e) as [|v|v p|x]; try done.
      destruct (create_or_reuse s g G _ []) as [[s1 n1]|] eqn:Ec; [|done]. destruct (fns s1 !! n1) as [N|] eqn:EN; [|done].
      intros (s2 & H2 & [= <-])%pbind_ok.
      assert (He0 : efit (K g) []) by (intros i x; by rewrite He).
      destruct (Inv_cor _ _ _ _ _ _ _ _ HI HG He0 Ec) as (K' & HI' & HX & Hsame & Ho & He' & Hnil & _).
      assert (HF1 : fns s1 !! n = Some F) by (rewrite (proj1 (Hsame n (ex_intro _ _ HF))); done).
      set (rt' := Mat _ p) in H2.
      set (F' := if decide (t = rt') then _ else _) in H2.
      assert (HbF : body F' = body F /\ params F' = params F /\ sites F' = <[k := (n1, rt')]> (sites F)) by (subst F'; by case_decide).
      destruct HbF as (Hb & Hp & HS).
      assert (HI2 : Inv K' (set_fn n F' s1)).
      { eapply Inv_retarget; [exact HI'|exact HF1|exact Hs|exists N; exact EN|exact Ho|right; exists e; split; [done|]|done|exact HS].
        intros i. rewrite Hnil by done. apply He. }
      destruct (Hrec _ _ _ (ex_intro _ _ HI2) H2) as ([K2 HI3] & HX2).
      split; [exists K2; by eapply Inv_same; [..|exact HI3]|].
      eapply Ext_trans; [exact HX|]. eapply Ext_trans; [by eapply Ext_set|]. eapply Ext_trans; [exact HX2|]. by apply Ext_same.
    - intros (s2 & H2 & [= <-])%pbind_ok. destruct (Hrec _ _ _ (ex_intro _ _ HI) H2) as ([K2 HI3] & HX2).
      split; [exists K2; by eapply Inv_same; [..|exact HI3]|]. eapply Ext_trans; [exact HX2|]. by apply Ext_same.
  Qed.
  Lemma spec_fn_keeps gas : rec_keeps (spec_fn gas).
  Proof.
    induction gas as [|gas IH]; intros n s s' HI; [done|]. cbn [UdfModel.spec_fn]. case_decide as Hv.
    - intros [= <-]. split; [done|apply Ext_refl].
    - destruct (fns s !! n) as [F|] eqn:HF; [|done]. intros (s1 & H1 & H2)%pbind_ok.
      assert (HI0 : Keeps s (add_visited n s)).
      { split; [|by apply Ext_same]. destruct HI as [K HI]. exists K. by eapply Inv_same; [..|exact HI]. }
      assert (HI1 : Keeps s s1).
      { eapply (pfold_inv (Keeps s)); [|exact HI0|exact H1]. intros [k es] s2 s3 Hx [HI2 HX2] H3.
        destruct (HX2 _ _ HF) as (F2 & HF2 & Hb & _). rewrite <- Hb in Hx.
        destruct (step_call_keeps _ _ _ _ _ _ _ IH HI2 HF2 Hx H3) as [HI3 HX3]. split; [done|]. by eapply Ext_trans. }
      eapply (pfold_inv (Keeps s)); [|exact HI1|exact H2]. intros [k e] s2 s3 Hx [HI2 HX2] H3.
      destruct (HX2 _ _ HF) as (F2 & HF2 & Hb & _). rewrite <- Hb in Hx.
      destruct (step_map_keeps _ _ _ _ _ _ _ IH HI2 HF2 Hx H3) as [HI3 HX3]. split; [done|]. by eapply Ext_trans.
  Qed.
  Lemma run_entry_inv gas n s s' : (∃ K, Inv K s) → run_entry gas n s = POk s' → ∃ K, Inv K s'.
  Proof.
    intros [K HI]. unfold UdfModel.run_entry. destruct (fns s !! n) as [F|] eqn:HF; [|done].
    destruct (_ || _).
    - intros [= <-]. eauto.
    - intros H. by apply (spec_fn_keeps gas n _ _ (ex_intro _ _ (Inv_infer _ _ _ _ HI HF)) H).
  Qed.
  Lemma init_inv : (∀ n F, M0 !! n = Some F → n.2 = [] /\ NoDup (ids (body F)) /\
      (∀ k es, (k, es) ∈ calls_of (body F) → ∃ (g : name) (t : ty), sites F !! k = Some (g, t) /\ is_Some (M0 !! g) /\ E n.1 g.1) /\
      (∀ k e, (k, e) ∈ maps_of (body F) → ∃ (g : name) (t : ty), sites F !! k = Some (g, t) /\ is_Some (M0 !! g) /\ E n.1 g.1)) →
    Inv (fun _ _ => None) (init M0).
  Proof.
    intros H. constructor; cbn [fns versions next init].
    - intros m F d vs HF _. destruct (H _ _ HF) as (Hm & _). by destruct m as [m1 m2]; cbn in *; subst.
    - intros m F k es HF Hk. destruct (H _ _ HF) as (_ & _ & Hc & _). destruct (Hc _ _ Hk) as (g & t & Hs & Hg & HE). exists g, t. done.
    - intros m F k e HF Hk. destruct (H _ _ HF) as (_ & _ & _ & Hc). destruct (Hc _ _ Hk) as (g & t & Hs & Hg & HE). exists g, t. done.
    - intros m F HF. by destruct (H _ _ HF) as (_ & ? & _).
    - intros g v Hv. by apply elem_of_nil in Hv.
    - intros m [F HF]. destruct (H _ _ HF) as (Hm & _). by rewrite Hm.
    - done.
  Qed.
  Lemma run_pass_inv gas order s : Inv (fun _ _ => None) (init M0) → run_pass gas order M0 = POk s → ∃ K, Inv K s.
  Proof.
    intros HI. unfold UdfModel.run_pass. apply (pfold_inv (fun s => ∃ K, Inv K s)); [|eauto].
    intros n s1 s2 _ H1 H2. by eapply run_entry_inv.
  Qed.

  (** ** Termination *)
  Lemma pfold_not_out {X} (I : st → Prop) (f : X → st → pres val op) l s :
    (∀ x s, x ∈ l → I s → f x s ≠ POut /\ ∀ s', f x s = POk s' → I s') → I s → pfold f l s ≠ POut.
  Proof.
    revert s. induction l as [|x l IH]; intros s Hf HI; cbn; [done|].
    destruct (Hf x s ltac:(by left) HI) as [H1 H2]. destruct (f x s) as [s1| |]; cbn; [|done|done].
    apply IH; [|by apply H2]. intros y s2 Hy. apply Hf. by right.
  Qed.
  Definition rec_stops (a : nat) (rec : name → st → pres val op) : Prop := ∀ n s, (∃ K, Inv K s) → E a n.1 → rec n s ≠ POut.
  Lemma pbind_called r v : r ≠ POut → pbind r (fun s2 => POk (add_called v s2)) ≠ POut.
  Proof. by destruct r. Qed.
  Lemma step_call_stops rec n F k es s :
    rec_stops n.1 rec → (∃ K, Inv K s) → fns s !! n = Some F → (k, es) ∈ calls_of (body F) → step_call rec n (k, es) s ≠ POut.
  Proof.
    intros Hrec [K HI] HF Hk. unfold UdfModel.step_call. cbn [fst snd]. rewrite HF.
    destruct (i_call _ _ HI _ _ _ _ HF Hk) as (g & t & Hs & [G HG] & HE & He). rewrite Hs, HG.
    destruct (is_template G || existsb is_const es); [|apply pbind_called, Hrec; [by exists K|done]].
    destruct (create_or_reuse s g G _ es) as [[s1 n1]|] eqn:Ec; [|done]. destruct (fns s1 !! n1) as [N|] eqn:EN; [|done].
    destruct (Inv_cor _ _ _ _ _ _ _ _ HI HG He Ec) as (K' & HI' & HX & Hsame & Ho & He' & _ & _).
    assert (HF1 : fns s1 !! n = Some F) by (rewrite (proj1 (Hsame n (ex_intro _ _ HF))); done).
    apply pbind_called, Hrec; [|by rewrite Ho]. exists K'.
    eapply Inv_retarget; [exact HI'|exact HF1|exact Hs|exists N; exact EN|exact Ho|left; eauto|by case_decide|by case_decide].
  Qed.
  Lemma step_map_stops rec n F k e s :
    rec_stops n.1 rec → (∃ K, Inv K s) → fns s !! n = Some F → (k, e) ∈ maps_of (body F) → step_map rec n (k, e) s ≠ POut.
  Proof.
    intros Hrec [K HI] HF Hk. unfold UdfModel.step_map. cbn [fst snd]. rewrite HF.
    destruct (i_map _ _ HI _ _ _ _ HF Hk) as (g & t & Hs & [G HG] & HE & He). rewrite Hs, HG.
    destruct (is_template G); [|apply pbind_called, Hrec; [by exists K|done]].
    destruct (typ (params F) (sites F) e) as [|v|v p|x]; try done.
    destruct (create_or_reuse s g G _ []) as [[s1 n1]|] eqn:Ec; [|done]. destruct (fns s1 !! n1) as [N|] eqn:EN; [|done].
    assert (He0 : efit (K g) []) by (intros i x; by rewrite He).
    destruct (Inv_cor _ _ _ _ _ _ _ _ HI HG He0 Ec) as (K' & HI' & HX & Hsame & Ho & He' & Hnil & _).
    assert (HF1 : fns s1 !! n = Some F) by (rewrite (proj1 (Hsame n (ex_intro _ _ HF))); done).
    apply pbind_called, Hrec; [|by rewrite Ho]. exists K'.
    eapply Inv_retarget; [exact HI'|exact HF1|exact Hs|exists N; exact EN|exact Ho|right; exists e; split; [done|]|by case_decide|by case_decide].
    intros i. rewrite Hnil by done. apply He.
  Qed.
  Lemma spec_fn_stops (rank : nat → nat) gas : (∀ a b, E a b → rank b < rank a) → ∀ n s, (∃ K, Inv K s) → rank n.1 < gas → spec_fn gas n s ≠ POut.
  Proof.
    intros HE. induction gas as [|gas IH]; intros n s HI Hr; [lia|]. cbn [UdfModel.spec_fn]. case_decide as Hv; [done|].
    destruct (fns s !! n) as [F|] eqn:HF; [|done].
    assert (Hrec : rec_stops n.1 (spec_fn gas)) by (intros n' s' HI' HE'; apply IH; [done|]; specialize (HE _ _ HE'); lia).
    assert (HI0 : Keeps s (add_visited n s)).
    { split; [|by apply Ext_same]. destruct HI as [K HI]. exists K. by eapply Inv_same; [..|exact HI]. }
    assert (Hcall : ∀ x s2, x ∈ calls_of (body F) → Keeps s s2 →
              step_call (spec_fn gas) n x s2 ≠ POut /\ ∀ s3, step_call (spec_fn gas) n x s2 = POk s3 → Keeps s s3).
    { intros [k es] s2 Hx [HI2 HX2]. destruct (HX2 _ _ HF) as (F2 & HF2 & Hb & _). rewrite <- Hb in Hx. split; [by eapply step_call_stops|].
      intros s3 H3. destruct (step_call_keeps _ _ _ _ _ _ _ (spec_fn_keeps gas) HI2 HF2 Hx H3) as [HI3 HX3]. split; [done|]. by eapply Ext_trans. }
    assert (Hmap : ∀ x s2, x ∈ maps_of (body F) → Keeps s s2 →
              step_map (spec_fn gas) n x s2 ≠ POut /\ ∀ s3, step_map (spec_fn gas) n x s2 = POk s3 → Keeps s s3).
    { intros [k e] s2 Hx [HI2 HX2]. destruct (HX2 _ _ HF) as (F2 & HF2 & Hb & _). rewrite <- Hb in Hx. split; [by eapply step_map_stops|].
      intros s3 H3. destruct (step_map_keeps _ _ _ _ _ _ _ (spec_fn_keeps gas) HI2 HF2 Hx H3) as [HI3 HX3]. split; [done|]. by eapply Ext_trans. }
    destruct (pfold (step_call (spec_fn gas) n) (calls_of (body F)) (add_visited n s)) as [s1| |] eqn:E1; cbn; [|done|].
    - eapply (pfold_not_out (Keeps s)); [exact Hmap|].
      eapply (pfold_inv (Keeps s)); [|exact HI0|exact E1]. intros x s2 s3 Hx Hk. by apply Hcall.
    - exfalso. eapply (pfold_not_out (Keeps s)); [exact Hcall|exact HI0|exact E1].
  Qed.
  Lemma run_pass_stops (rank : nat → nat) gas order :
    (∀ a b, E a b → rank b < rank a) → Inv (fun _ _ => None) (init M0) → (∀ n, n ∈ order → rank n.1 < gas) → run_pass gas order M0 ≠ POut.
  Proof.
    intros HE HI Ho. unfold UdfModel.run_pass. apply (pfold_not_out (fun s => ∃ K, Inv K s)); [|eauto].
    intros n s Hn Hs. split; [|intros s'; by apply run_entry_inv].
    unfold UdfModel.run_entry. destruct (fns s !! n) as [F|] eqn:HF; [|done]. destruct (_ || _); [done|].
    destruct Hs as [K HK]. apply (spec_fn_stops rank); [done|exists K; by apply Inv_infer|by apply Ho].
  Qed.
End inv.
