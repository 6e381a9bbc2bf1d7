(** * The calls of a compiled program (proofs for C76) *)
From stdpp Require Import base numbers list gmap.
From Verif Require Import CppBase UdfModel UdfSpec UdfProofs UdfInv.

Section types.
  Context {val op : Type}.
  Context (vty : val → ty) (truth : val → option bool) (fold : op → list val → option val) (opty : op → list ty → ty).
  Context (ipa : bool).
  Notation simp := (simp truth fold).
  Notation typ := (typ vty opty).
  Notation infer_fn := (infer_fn vty truth fold opty).
  Notation create_spec := (create_spec vty truth fold opty ipa).
  Notation create_or_reuse := (create_or_reuse vty truth fold opty ipa).
  Notation step_call := (step_call vty truth fold opty ipa).
  Notation step_map := (step_map vty truth fold opty ipa).
  Notation spec_fn := (spec_fn vty truth fold opty ipa).
  Notation run_entry := (run_entry vty truth fold opty ipa).
  Notation run_pass := (run_pass vty truth fold opty ipa).
  Notation exp := (exp val op).
  Notation func := (func val op).
  Notation st := (st val op).
  Implicit Types (e : exp) (es : list exp) (F G : func) (s : st).

  (** ** Types of expressions *)
  Lemma ids_es es e k : e ∈ es → k ∈ ids e → k ∈ (es ≫= calls_of).*1 ++ (es ≫= maps_of).*1.
  Proof.
    intros He. unfold ids. rewrite !elem_of_app, !elem_of_list_fmap. intros [(x & -> & Hx)|(x & -> & Hx)]; [left|right];
      exists x; (split; [done|]); apply elem_of_list_bind; eauto.
  Qed.
  Lemma typ_sites p S S' e : (∀ k, k ∈ ids e → S !! k = S' !! k) → typ p S e = typ p S' e.
  Proof.
    induction e as [i| |o es IH|k es IH|k e IH|c t e IHc IHt IHe] using exp_ind'; intros H; cbn [UdfModel.typ]; try done.
    - f_equal. apply list_fmap_ext. intros i e Hi. rewrite Forall_forall in IH. apply elem_of_list_lookup_2 in Hi as He.
      apply IH; [done|]. intros k Hk. apply H. unfold ids. cbn. by eapply ids_es.
    - rewrite H; [done|]. unfold ids. cbn. rewrite fmap_app, !elem_of_app. left. right. by left.
    - rewrite H; [done|]. unfold ids. cbn. rewrite fmap_app, !elem_of_app. right. right. by left.
    - rewrite IHt, IHe; [done|..]; intros k Hk; apply H; unfold ids in *; cbn; rewrite !fmap_app, !elem_of_app in *; tauto.
  Qed.
  Lemma typ_own p S S' e : own_result e = true → typ p S e = typ p S' e.
  Proof.
    induction e as [i| |o es IH|k es IH|k e IH|c t e IHc IHt IHe] using exp_ind'; intros H; cbn in H |- *; try done.
    - f_equal. apply list_fmap_ext. intros i e Hi. apply elem_of_list_lookup_2 in Hi as He. rewrite Forall_forall in IH. apply IH; [done|].
      rewrite forallb_forall in H. apply H. by apply elem_of_list_In.
    - apply andb_true_iff in H as [H1 H2]. rewrite IHt, IHe; done.
  Qed.
  Lemma own_subst cs e : own_result e = true → own_result (subst cs e) = true.
  Proof.
    induction e as [i| |o es IH|k es IH|k e IH|c t e IHc IHt IHe] using exp_ind'; intros H; cbn in H |- *; try done.
    - by destruct (cs !! i) as [[c|]|].
    - rewrite forallb_forall in H |- *. intros x Hx. apply elem_of_list_In, elem_of_list_fmap in Hx as (e & -> & He).
      rewrite Forall_forall in IH. apply IH; [done|]. apply H. by apply elem_of_list_In.
    - apply andb_true_iff in H as [H1 H2]. rewrite IHt, IHe; done.
  Qed.
  Lemma own_simp e : own_result e = true → own_result (simp e) = true.
  Proof.
    induction e as [i| |o es IH|k es IH|k e IH|c t e IHc IHt IHe] using exp_ind'; intros H; try done.
    - cbn [UdfModel.simp]. assert (H' : own_result (Op o (simp <$> es)) = true).
      { cbn in H |- *. rewrite forallb_forall in H |- *. intros x Hx. apply elem_of_list_In, elem_of_list_fmap in Hx as (e & -> & He).
        rewrite Forall_forall in IH. apply IH; [done|]. apply H. by apply elem_of_list_In. }
      destruct (mapM const_of (simp <$> es)) as [cs|]; [|done]. by destruct (fold o cs).
    - cbn in H. apply andb_true_iff in H as [H1 H2]. cbn [UdfModel.simp].
      destruct (simp c); try (cbn; by rewrite IHt, IHe). destruct (truth c0) as [[]|]; [by apply IHt|by apply IHe|]. cbn. by rewrite IHt, IHe.
  Qed.

  (** ** The order of the walk: the calls in the operands of a call come before it. *)
  Definition ordered {X} (kids : X → list X) (l : list X) : Prop := ∀ l1 x l2, l = l1 ++ x :: l2 → ∀ y, y ∈ kids x → y ∈ l1.
  Lemma ordered_nil {X} (kids : X → list X) : ordered kids [].
  Proof. intros l1 x l2 H. by destruct l1. Qed.
  Lemma ordered_app {X} (kids : X → list X) l l' : ordered kids l → ordered kids l' → ordered kids (l ++ l').
  Proof.
    intros H H' l1 x l2 E y Hy. apply app_eq_inv in E as [(r & -> & E)|(r & -> & E)].
    - destruct r as [|z r]; cbn in E.
      + exfalso. apply (H' [] x l2 (eq_sym E)) in Hy. by apply elem_of_nil in Hy.
      + injection E as -> ->. by eapply H.
    - apply elem_of_app. right. by eapply H'.
  Qed.
  Lemma ordered_bind {X Y} (kids : X → list X) (f : Y → list X) l : Forall (fun y => ordered kids (f y)) l → ordered kids (l ≫= f).
  Proof. induction 1 as [|y l Hy _ IH]; [apply ordered_nil|]. cbn. by apply ordered_app. Qed.
  Lemma ordered_snoc {X} (kids : X → list X) l x : ordered kids l → (∀ y, y ∈ kids x → y ∈ l) → ordered kids (l ++ [x]).
  Proof.
    intros H Hx l1 z l2 E y Hy. destruct l2 as [|w l2] using rev_ind.
    - apply app_inj_tail in E as [-> ->]. by apply Hx.
    - rewrite app_comm_cons, app_assoc in E. apply app_inj_tail in E as [-> _]. by eapply H.
  Qed.
  Definition ckids (ke : nat * list exp) : list (nat * list exp) := ke.2 ≫= calls_of.
  Definition mkids (ke : nat * exp) : list (nat * exp) := maps_of ke.2.
  Lemma calls_ordered e : ordered ckids (calls_of e).
  Proof.
    induction e as [i| |o es IH|k es IH|k e IH|c t e IHc IHt IHe] using exp_ind'; cbn; try apply ordered_nil; try done.
    - by apply ordered_bind.
    - apply ordered_snoc; [by apply ordered_bind|done].
    - by repeat apply ordered_app.
  Qed.
  Lemma maps_ordered e : ordered mkids (maps_of e).
  Proof.
    induction e as [i| |o es IH|k es IH|k e IH|c t e IHc IHt IHe] using exp_ind'; cbn; try apply ordered_nil; try done.
    - by apply ordered_bind.
    - by apply ordered_bind.
    - apply ordered_snoc; done.
    - by repeat apply ordered_app.
  Qed.
  Lemma calls_in_maps e k e1 x : (k, e1) ∈ maps_of e → x ∈ calls_of e1 → x ∈ calls_of e.
  Proof.
    induction e as [i| |o es IH|k' es IH|k' e IH|c t e IHc IHt IHe] using exp_ind'; cbn; intros Hm Hx.
    - by apply elem_of_nil in Hm.
    - by apply elem_of_nil in Hm.
    - apply elem_of_list_bind in Hm as (e & Hm & He). rewrite Forall_forall in IH. apply elem_of_list_bind. eauto.
    - apply elem_of_list_bind in Hm as (e & Hm & He). rewrite Forall_forall in IH. apply elem_of_app. left. apply elem_of_list_bind. eauto.
    - apply elem_of_app in Hm as [Hm|Hm]; [eauto|]. apply elem_of_list_singleton in Hm. by injection Hm as -> ->.
    - rewrite !elem_of_app in *. tauto.
  Qed.

  (** ** Arguments without maps *)
  Definition args_ok (b : exp) : Prop := ∀ k es, (k, es) ∈ calls_of b → es ≫= maps_of = [].
  Lemma bind_nil {X Y} (f : X → list Y) l : l ≫= f = [] ↔ ∀ x, x ∈ l → f x = [].
  Proof.
    induction l as [|x l IH]; cbn; [split; [intros _ y Hy; by apply elem_of_nil in Hy|done]|].
    split.
    - intros H. apply app_eq_nil in H as [H1 H2]. intros y Hy. apply elem_of_cons in Hy as [->|Hy]; [done|]. by apply IH.
    - intros H. rewrite (H x) by by left. cbn. apply IH. intros y Hy. apply H. by right.
  Qed.
  Lemma args_ok_subst cs b : args_ok b → args_ok (subst cs b).
  Proof.
    intros H k es Hk. rewrite calls_subst in Hk. apply elem_of_list_fmap in Hk as ([k1 es1] & [= -> ->] & Hk). specialize (H _ _ Hk). cbn.
    apply bind_nil. intros x Hx. apply elem_of_list_fmap in Hx as (e & -> & He). rewrite maps_subst. rewrite bind_nil in H. by rewrite (H e).
  Qed.
  Lemma args_ok_simp b : args_ok b → args_ok (simp b).
  Proof.
    intros H k es Hk. apply calls_simp_in in Hk as (es1 & Hk & ->). specialize (H _ _ Hk).
    apply bind_nil. intros x Hx. apply elem_of_list_fmap in Hx as (e & -> & He). rewrite bind_nil in H. specialize (H e He).
    destruct (maps_of (simp e)) as [|[k1 e1] l] eqn:E; [done|]. exfalso.
    assert (Hin : (k1, e1) ∈ maps_of (simp e)) by (rewrite E; by left). apply maps_simp_in in Hin as (e2 & Hin & _). rewrite H in Hin. by apply elem_of_nil in Hin.
  Qed.

  (** ** Matching types *)
  Lemma match_types_eq ps ts : length ps = length ts → match_types ps ts = true → ps = ts.
  Proof.
    unfold match_types. revert ts. induction ps as [|p ps IH]; intros [|t ts]; cbn; try done. intros [= Hl] H.
    apply andb_true_iff in H as [H1 H2]. apply bool_decide_eq_true in H1 as ->. by rewrite (IH ts).
  Qed.
  Lemma spec_types_eq ps ts ts' : length ps = length ts → spec_types ps ts = Some ts' → ts' = ts.
  Proof.
    unfold spec_types. intros Hl. destruct (forallb _ _); [|done]. intros [= <-]. rewrite snd_zip; [done|]. lia.
  Qed.

  (** ** The program *)
  Context (M0 : gmap name func) (Own : bool).
  Context (HWF : well_formed M0) (HAT : all_templates M0).
  Context (HAO : ∀ n F, M0 !! n = Some F → args_ok (body F)).
  Context (HOwn : Own = true → own_results M0).

  (** A call and a map that the pass has not treated. *)
  Definition rawc F k es : Prop := ∃ (g : name) (t : ty) G, sites F !! k = Some (g, t) /\ M0 !! g = Some G /\ g ≠ main /\ length (params G) = length es.
  Definition rawm F k : Prop := ∃ (g : name) (t : ty) G, sites F !! k = Some (g, t) /\ M0 !! g = Some G /\ g ≠ main /\ length (params G) = 1.
  Definition raw F : Prop :=
    NoDup (ids (body F)) /\ args_ok (body F) /\ (∀ k es, (k, es) ∈ calls_of (body F) → rawc F k es) /\ (∀ k e, (k, e) ∈ maps_of (body F) → rawm F k).
  Lemma raw_orig n F : M0 !! n = Some F → raw F.
  Proof.
    intros HF. destruct HWF as [_ H]. destruct (H _ _ HF) as (_ & H1 & H2 & H3). split; [done|]. split; [by eapply HAO|]. split; [done|]. done.
  Qed.
  Lemma raw_clone G tys r cs : raw G → raw (infer_fn (Func tys r (sites G) (subst cs (body G)))).
  Proof.
    intros (H1 & H2 & H3 & H4). split_and!; cbn [UdfModel.infer_fn body sites].
    - apply ids_simp. by rewrite ids_subst.
    - by apply args_ok_simp, args_ok_subst.
    - intros k es Hk. apply calls_simp_in in Hk as (es1 & Hk & ->). rewrite calls_subst in Hk. apply elem_of_list_fmap in Hk as ([k1 es2] & [= -> ->] & Hk).
      destruct (H3 _ _ Hk) as (g & t & G' & Hs & HG & Hm & Hl). exists g, t, G'. cbn. rewrite !fmap_length. done.
    - intros k e Hk. apply maps_simp_in in Hk as (e1 & Hk & ->). rewrite maps_subst in Hk. apply elem_of_list_fmap in Hk as ([k1 e2] & [= -> ->] & Hk). by eapply H4.
  Qed.
  Lemma raw_infer F : raw F → raw (infer_fn F).
  Proof.
    intros (H1 & H2 & H3 & H4). split_and!; cbn [UdfModel.infer_fn body sites].
    - by apply ids_simp.
    - by apply args_ok_simp.
    - intros k es Hk. apply calls_simp_in in Hk as (es1 & Hk & ->).
      destruct (H3 _ _ Hk) as (g & t & G' & Hs & HG & Hm & Hl). exists g, t, G'. cbn. rewrite !fmap_length. done.
    - intros k e Hk. apply maps_simp_in in Hk as (e1 & Hk & ->). by eapply H4.
  Qed.

  Record J s : Prop := {
    j_raw : ∀ m F, fns s !! m = Some F → m ∉ visited s → raw F;
    j_orig : ∀ g G, M0 !! g = Some G → g ≠ main → fns s !! g = Some G;
    j_vis : ∀ m, m ∈ visited s → is_Some (fns s !! m) /\ (m = main \/ m.2 ≠ []);
    j_templs : ∀ g, g ∈ templs s → g.2 = [] /\ g ≠ main;
    j_vers : ∀ g v, (g, v) ∈ versions s → v.2 ≠ [] /\ ∃ V, fns s !! v = Some V /\ ∀ G, M0 !! g = Some G → length (params V) = length (params G);
    j_res : ∀ m F, Own = true → fns s !! m = Some F → m.2 ≠ [] → own_result (body F) = true /\ res F = typ (params F) (sites F) (body F);
    j_called : ∀ v, v ∈ called s → v ∈ visited s /\ v.2 ≠ [];
    j_fresh : ∀ m, is_Some (fns s !! m) → Forall (fun x => x < next s) m.2 }.

  (** A call and a map that the pass has treated. *)
  Definition donec s F k es : Prop := ∃ (v : name) (t : ty) V, sites F !! k = Some (v, t) /\ v ∈ called s /\ fns s !! v = Some V /\
    params V = typ (params F) (sites F) <$> es /\ (Own = true → res V = t).
  Definition elem_ty (v : option vtype) : ty := match v with Some w => Sca w | None => Unk end.
  Definition donem s F k e : Prop := ∃ (v : name) (t : ty) V w p, sites F !! k = Some (v, t) /\ v ∈ called s /\ fns s !! v = Some V /\
    typ (params F) (sites F) e = Mat w p /\ params V = [elem_ty w] /\
    (Own = true → t = Mat (match res V with Sca x => Some x | _ => None end) p).
  Definition done_fn s m : Prop := ∃ F, fns s !! m = Some F /\
    (∀ k es, (k, es) ∈ calls_of (body F) → donec s F k es) /\ (∀ k e, (k, e) ∈ maps_of (body F) → donem s F k e).

  (** What later states keep. *)
  Definition Ext2 s s' : Prop :=
    (∀ m F, fns s !! m = Some F → ∃ F', fns s' !! m = Some F' /\ params F' = params F /\ body F' = body F /\ (Own = true → m.2 ≠ [] → res F' = res F)) /\
    (∀ m, m ∈ visited s → m ∈ visited s') /\ (∀ m, m ∈ called s → m ∈ called s').
  Lemma Ext2_refl s : Ext2 s s.
  Proof. split_and!; eauto. Qed.
  Lemma Ext2_trans s1 s2 s3 : Ext2 s1 s2 → Ext2 s2 s3 → Ext2 s1 s3.
  Proof.
    intros (H1 & H2 & H3) (H4 & H5 & H6). split_and!; eauto. intros m F HF. destruct (H1 _ _ HF) as (F1 & HF1 & ? & ? & Hr).
    destruct (H4 _ _ HF1) as (F2 & HF2 & ? & ? & Hr2). exists F2. split_and!; [done|congruence..|]. intros. rewrite Hr2, Hr; done.
  Qed.
  Lemma donec_ext s s' F k es : J s → Ext2 s s' → donec s F k es → donec s' F k es.
  Proof.
    intros HJ (H1 & H2 & H3) (v & t & V & Hs & Hc & HV & Hp & Hr). destruct (H1 _ _ HV) as (V' & HV' & Hp' & _ & Hr').
    exists v, t, V'. split_and!; eauto; [congruence|]. intros HO. destruct (j_called _ HJ _ Hc) as [_ Hv]. rewrite Hr' by done. by apply Hr.
  Qed.
  Lemma donem_ext s s' F k e : J s → Ext2 s s' → donem s F k e → donem s' F k e.
  Proof.
    intros HJ (H1 & H2 & H3) (v & t & V & w & p & Hs & Hc & HV & Ht & Hp & Hr). destruct (H1 _ _ HV) as (V' & HV' & Hp' & _ & Hr').
    exists v, t, V', w, p. split_and!; eauto; [congruence|]. intros HO. destruct (j_called _ HJ _ Hc) as [_ Hv]. rewrite Hr' by done. by apply Hr.
  Qed.
  Lemma done_fn_ext s s' m : J s → Ext2 s s' → fns s' !! m = fns s !! m → done_fn s m → done_fn s' m.
  Proof.
    intros HJ HX Hm (F & HF & H1 & H2). exists F. rewrite Hm. split_and!; [done|..].
    - intros k es Hk. eapply donec_ext; eauto.
    - intros k e Hk. eapply donem_ext; eauto.
  Qed.

  (** What the treatment of a function gives. *)
  Definition Post s s' n : Prop :=
    J s' /\ Ext2 s s' /\ n ∈ visited s' /\ (∀ m, m ∈ visited s → fns s' !! m = fns s !! m) /\ (∀ m, m ∈ visited s' → m ∉ visited s → done_fn s' m).
  Definition rec_post (rec : name → st → pres val op) : Prop :=
    ∀ n s s', J s → n = main \/ n.2 ≠ [] → rec n s = POk s' → Post s s' n.

  (** ** Creating or reusing a specialization *)
  Lemma cor_spec s g G tys es s1 n1 :
    J s → M0 !! g = Some G → g ≠ main → length (params G) = length tys → create_or_reuse s g G tys es = Some (s1, n1) →
    J s1 /\ Ext2 s s1 /\ visited s1 = visited s /\ called s1 = called s /\ n1.2 ≠ [] /\ (∀ m, is_Some (fns s !! m) → fns s1 !! m = fns s !! m) /\
    ∃ N, fns s1 !! n1 = Some N /\ params N = tys.
  Proof.
    intros HJ HG Hgm Hl. assert (Hg2 : g.2 = []) by (destruct HWF as [_ H]; by destruct (H _ _ HG) as (? & _)).
    assert (Htempl : ∀ s', J s' → J (add_templ g s')).
    { intros s' []. constructor; cbn; try done. intros h Hh. apply elem_of_cons in Hh as [->|Hh]; [done|by apply j_templs0]. }
    unfold UdfModel.create_or_reuse. destruct (try_reuse ipa s g tys es) as [v|] eqn:Er.
    - intros [= <- <-]. unfold try_reuse in Er. destruct (ipa && existsb is_const es); [done|].
      apply find_version_in in Er as (Hv & V & HV & Hm). destruct (j_vers _ HJ _ _ Hv) as (Hv2 & V' & HV' & HL). rewrite HV in HV'. injection HV' as <-.
      split_and!; eauto; [split_and!; eauto|]. exists V. split; [done|]. apply match_types_eq; [|done]. rewrite (HL _ HG). done.
    - destruct (spec_types (params G) tys) as [tys'|] eqn:Et; cbn [mbind option_bind]; [|done]. apply spec_types_eq in Et as ->; [|done].
      unfold UdfModel.create_spec. set (n := (g.1, g.2 ++ [next s])). set (cs := if ipa && negb (is_untyped G) then _ else _).
      set (F := infer_fn (Func tys (res G) (sites G) (subst cs (body G)))). cbn. intros [= <- <-].
      assert (Hfresh : fns s !! n = None).
      { destruct (fns s !! n) as [X|] eqn:En; [|done]. exfalso. pose proof (j_fresh _ HJ n (ex_intro _ _ En)) as Hf. cbn in Hf.
        apply Forall_app in Hf as [_ Hf]. apply Forall_inv in Hf. lia. }
      assert (Hn2 : n.2 ≠ []) by (cbn; by destruct g.2).
      assert (Hsame : ∀ m, is_Some (fns s !! m) → <[n := F]> (fns s) !! m = fns s !! m).
      { intros m [X Hm]. apply lookup_insert_ne. intros <-. by rewrite Hfresh in Hm. }
      assert (HownF : Own = true → own_result (body F) = true /\ res F = typ (params F) (sites F) (body F)).
      { intros HO. split; [|done]. cbn. apply own_simp, own_subst. by eapply HOwn. }
      split_and!; [|split_and!| | | | |].
      + apply (Htempl (St (<[n := F]> (fns s)) _ (visited s) (called s) (templs s) (S (next s)))). destruct HJ. constructor; cbn [fns versions visited called templs next].
        * intros m X HX Hm. destruct (decide (m = n)) as [->|Hn].
          -- rewrite lookup_insert in HX. injection HX as <-. apply raw_clone. by eapply raw_orig.
          -- rewrite lookup_insert_ne in HX by done. eauto.
        * intros h H Hh Hm. rewrite Hsame; eauto.
        * intros m Hm. destruct (j_vis0 _ Hm) as [H1 H2]. split; [|done]. by rewrite Hsame.
        * done.
        * intros h v Hv. assert (Hold : (h, v) ∈ versions s → v.2 ≠ [] /\ ∃ V, <[n := F]> (fns s) !! v = Some V /\ ∀ G, M0 !! h = Some G → length (params V) = length (params G)).
          { intros Hin. destruct (j_vers0 _ _ Hin) as (H1 & V & HV & HL). split; [done|]. exists V. rewrite Hsame by eauto. done. }
          destruct (_ && existsb is_const es); [by apply Hold|]. apply elem_of_app in Hv as [Hv|Hv]; [by apply Hold|].
          apply elem_of_list_singleton in Hv. injection Hv as -> ->. split; [done|]. exists F. rewrite lookup_insert. split; [done|].
          intros G' HG'. rewrite HG in HG'. injection HG' as <-. cbn. lia.
        * intros m X HO HX Hm. destruct (decide (m = n)) as [->|Hn].
          -- rewrite lookup_insert in HX. injection HX as <-. by apply HownF.
          -- rewrite lookup_insert_ne in HX by done. eauto.
        * done.
        * intros m Hm. destruct (decide (m = n)) as [->|Hn].
          -- cbn. rewrite Hg2. cbn. apply Forall_singleton. lia.
          -- rewrite lookup_insert_ne in Hm by done. eapply Forall_impl; [by apply j_fresh0|]. cbn. lia.
      + intros m X HX. exists X. cbn. rewrite Hsame by eauto. done.
      + done.
      + done.
      + done.
      + done.
      + done.
      + done.
      + exists F. cbn. by rewrite lookup_insert.
  Qed.

  (** ** The walk through a function *)
  Lemma pfold_prefix {X} (I : list X → st → Prop) (f : X → st → pres val op) l s s' :
    (∀ l1 x l2 s s', l = l1 ++ x :: l2 → I l1 s → f x s = POk s' → I (l1 ++ [x]) s') → I [] s → pfold f l s = POk s' → I l s'.
  Proof.
    intros Hf HI. assert (H : ∀ l2 l1 s, l = l1 ++ l2 → I l1 s → pfold f l2 s = POk s' → I l s'); [|by apply (H l [])].
    clear HI s. induction l2 as [|x l2 IH]; intros l1 s E HI; cbn.
    - intros [= <-]. by rewrite E, app_nil_r.
    - intros (s1 & H1 & H2)%pbind_ok. eapply (IH (l1 ++ [x])); [by rewrite <- app_assoc|by eapply Hf|done].
  Qed.

  Definition okname (n : name) : Prop := n = main \/ n.2 ≠ [].
  Definition similar F F' : Prop :=
    params F' = params F /\ body F' = body F /\ (res F' = res F \/ res F' = typ (params F) (sites F') (body F)).
  Lemma J_set s n F F' :
    J s → fns s !! n = Some F → n ∈ visited s → okname n → similar F F' → J (set_fn n F' s) /\ Ext2 s (set_fn n F' s).
  Proof.
    intros HJ HF Hv Hn (Hp & Hb & Hr).
    assert (Hres : Own = true → n.2 ≠ [] → own_result (body F) = true /\ res F' = res F /\ res F = typ (params F) (sites F') (body F)).
    { intros HO Hn2. destruct (j_res _ HJ _ _ HO HF Hn2) as [Ho Hr']. split; [done|]. pose proof (typ_own (params F) (sites F) (sites F') _ Ho) as Ht.
      destruct Hr as [->| ->]; split; congruence. }
    assert (Hdom : ∀ m, is_Some (fns s !! m) → is_Some (<[n := F']> (fns s) !! m)).
    { intros m Hm. destruct (decide (m = n)) as [->|]; [rewrite lookup_insert; eauto|by rewrite lookup_insert_ne]. }
    split.
    - destruct HJ. constructor; cbn [fns versions visited called templs next set_fn]; try done.
      + intros m X HX Hm. destruct (decide (m = n)) as [->|]; [done|]. rewrite lookup_insert_ne in HX by done. eauto.
      + intros g G HG Hg. destruct (decide (g = n)) as [->|]; [|rewrite lookup_insert_ne by done; eauto].
        destruct Hn as [?|Hn]; [done|]. destruct HWF as [_ H]. by destruct (H _ _ HG) as (? & _).
      + intros m Hm. destruct (j_vis0 _ Hm) as [H1 H2]. eauto.
      + intros g v Hgv. destruct (j_vers0 _ _ Hgv) as (H1 & V & HV & HL). split; [done|]. destruct (decide (v = n)) as [->|].
        * exists F'. rewrite lookup_insert. split; [done|]. rewrite Hp. rewrite HF in HV. injection HV as <-. done.
        * exists V. rewrite lookup_insert_ne by done. done.
      + intros m X HO HX Hm. destruct (decide (m = n)) as [->|]; [|rewrite lookup_insert_ne in HX by done; eauto].
        rewrite lookup_insert in HX. injection HX as <-. destruct (Hres HO Hm) as (H1 & H2 & H3). rewrite Hb, Hp. split; congruence.
      + intros m Hm. apply j_fresh0. destruct (decide (m = n)) as [->|]; [by exists F|]. by rewrite lookup_insert_ne in Hm.
    - split_and!; [|done|done]. intros m X HX. cbn [fns set_fn]. destruct (decide (m = n)) as [->|].
      + rewrite HF in HX. injection HX as <-. exists F'. rewrite lookup_insert. split_and!; try done. intros HO Hm. by destruct (Hres HO Hm) as (_ & ? & _).
      + exists X. rewrite lookup_insert_ne by done. done.
  Qed.
  Lemma J_called s v : J s → v ∈ visited s → v.2 ≠ [] → J (add_called v s) /\ Ext2 s (add_called v s).
  Proof.
    intros [] Hv Hv2. split.
    - constructor; cbn; try done. intros w Hw. apply elem_of_cons in Hw as [->|Hw]; [done|]. by apply j_called0.
    - split_and!; cbn; eauto. intros m Hm. by right.
  Qed.

  Definition Mid s0 n s : Prop :=
    J s /\ Ext2 s0 s /\ n ∈ visited s /\ (∀ m, m ∈ visited s0 → fns s !! m = fns s0 !! m) /\
    (∀ m, m ∈ visited s → m ∉ visited s0 → m ≠ n → done_fn s m).
  Lemma visit_step rec s0 n s F F' s1 n1 s2 :
    rec_post rec → Mid s0 n s → J s0 → n ∉ visited s0 → okname n → fns s !! n = Some F →
    J s1 → Ext2 s s1 → visited s1 = visited s → (∀ m, is_Some (fns s !! m) → fns s1 !! m = fns s !! m) → n1.2 ≠ [] →
    similar F F' → rec n1 (set_fn n F' s1) = POk s2 →
    Mid s0 n (add_called n1 s2) /\ fns (add_called n1 s2) !! n = Some F' /\ Ext2 s (add_called n1 s2) /\ Ext2 s1 (add_called n1 s2).
  Proof.
    intros Hrec (HJ & HX & Hnv & Hsame & Hdone) HJ0 Hn0 Hn HF HJ1 HX1 Hv1 Hs1 Hn1 Hsim H2.
    assert (HF1 : fns s1 !! n = Some F) by (rewrite Hs1; eauto).
    destruct (J_set s1 n F F' HJ1 HF1) as [HJ1' HX1']; [by rewrite Hv1|done|done|].
    destruct (Hrec _ _ _ HJ1' (or_intror Hn1) H2) as (HJ2 & HX2 & Hv2 & Hs2 & Hd2).
    destruct (J_called s2 n1 HJ2 Hv2 Hn1) as [HJ3 HX3].
    assert (HX13 : Ext2 s1 (add_called n1 s2)) by (eapply Ext2_trans; [exact HX1'|]; by eapply Ext2_trans).
    assert (HXs : Ext2 s (add_called n1 s2)) by (by eapply Ext2_trans).
    assert (Hkeep : ∀ m, m ∈ visited s → m ≠ n → fns s2 !! m = fns s !! m).
    { intros m Hm Hmn. rewrite Hs2 by (cbn; by rewrite Hv1). cbn [fns set_fn]. rewrite lookup_insert_ne by done. apply Hs1. by apply (j_vis _ HJ). }
    split_and!; [split_and!|..]; try done.
    - by eapply Ext2_trans.
    - apply HXs. done.
    - intros m Hm. cbn [fns add_called]. rewrite Hkeep; [by apply Hsame|by apply HX|]. by intros ->.
    - cbn [visited add_called]. intros m Hm Hm0 Hmn. destruct (decide (m ∈ visited s)) as [Hms|Hms].
      + eapply (done_fn_ext s); [done..|cbn [fns add_called]; by apply Hkeep|]. by apply Hdone.
      + eapply (done_fn_ext s2); [done|done|done|]. apply Hd2; [done|]. cbn. by rewrite Hv1.
    - cbn [fns add_called]. rewrite Hs2 by (cbn; by rewrite Hv1). cbn [fns set_fn]. by rewrite lookup_insert.
  Qed.

  Lemma prefix_kids {X} (kids : X → list X) l l1 l2 x y : ordered kids l → l = l1 ++ l2 → x ∈ l1 → y ∈ kids x → y ∈ l1.
  Proof.
    intros H -> Hx Hy. apply elem_of_list_split in Hx as (a & b & ->). apply elem_of_app. left.
    eapply (H a x (b ++ l2)); [by rewrite <- app_assoc|done].
  Qed.
  (** The call sites in the operands of a call or a map. *)
  Lemma ids_args b k es e k' : args_ok b → (k, es) ∈ calls_of b → e ∈ es → k' ∈ ids e → ∃ es', (k', es') ∈ ckids (k, es).
  Proof.
    intros Ha Hk He. unfold ids. pose proof (Ha _ _ Hk) as Hm. rewrite bind_nil in Hm. rewrite (Hm _ He), app_nil_r.
    intros ([k1 es1] & -> & Hx)%elem_of_list_fmap. exists es1. apply elem_of_list_bind. eauto.
  Qed.

  (** The state of the walk: the calls l1 and the maps l2 have been treated. *)
  Definition W s0 n b p (l1 : list (nat * list exp)) (l2 : list (nat * exp)) s : Prop :=
    Mid s0 n s /\ ∃ F, fns s !! n = Some F /\ body F = b /\ params F = p /\
      (∀ k es, (k, es) ∈ l1 → donec s F k es) /\ (∀ k es, (k, es) ∈ calls_of b → (k, es) ∉ l1 → rawc F k es) /\
      (∀ k e, (k, e) ∈ l2 → donem s F k e) /\ (∀ k e, (k, e) ∈ maps_of b → (k, e) ∉ l2 → rawm F k).

  Lemma rawc_sites F F' k es : sites F' !! k = sites F !! k → rawc F k es → rawc F' k es.
  Proof. unfold rawc. by intros ->. Qed.
  Lemma rawm_sites F F' k : sites F' !! k = sites F !! k → rawm F k → rawm F' k.
  Proof. unfold rawm. by intros ->. Qed.
  Lemma donec_sites s F F' k es : params F' = params F → sites F' !! k = sites F !! k →
    (∀ e k', e ∈ es → k' ∈ ids e → sites F' !! k' = sites F !! k') → donec s F k es → donec s F' k es.
  Proof.
    intros Hp Hk He (v & t & V & Hs & Hc & HV & Hpar & Hr). exists v, t, V. rewrite Hk, Hp. split_and!; try done. rewrite Hpar.
    apply list_fmap_ext. intros i e Hi. apply typ_sites. intros k' Hk'. symmetry. apply (He e); [|done]. by eapply elem_of_list_lookup_2.
  Qed.
  Lemma donem_sites s F F' k e : params F' = params F → sites F' !! k = sites F !! k →
    (∀ k', k' ∈ ids e → sites F' !! k' = sites F !! k') → donem s F k e → donem s F' k e.
  Proof.
    intros Hp Hk He (v & t & V & w & q & Hs & Hc & HV & Ht & Hpar & Hr). exists v, t, V, w, q. rewrite Hk, Hp. split_and!; try done. rewrite <- Ht.
    by apply typ_sites.
  Qed.

  Lemma step_call_W rec s0 n b p l1 k es l2 s s' :
    rec_post rec → J s0 → n ∉ visited s0 → okname n → NoDup (ids b) → args_ok b → calls_of b = l1 ++ (k, es) :: l2 →
    W s0 n b p l1 [] s → step_call rec n (k, es) s = POk s' → W s0 n b p (l1 ++ [(k, es)]) [] s'.
  Proof.
    intros Hrec HJ0 Hn0 Hn Hnd Ha Hl (HM & F & HF & Hb & Hp & Hd & Hr & _ & Hrm).
    assert (Hin : (k, es) ∈ calls_of b) by (rewrite Hl; apply elem_of_app; right; by left).
    assert (Hkeys : NoDup ((calls_of b).*1)) by (unfold ids in Hnd; by apply NoDup_app in Hnd as (? & _)).
    assert (Hk1 : ∀ es', (k, es') ∉ l1).
    { intros es' Hes. rewrite Hl, fmap_app, fmap_cons in Hkeys. apply NoDup_app in Hkeys as (_ & Hx & _). eapply (Hx k).
      - apply elem_of_list_fmap. by exists (k, es').
      - by left. }
    destruct HM as (HJ & HX & Hnv & Hsame & Hdone). destruct (Hr _ _ Hin (Hk1 es)) as (g & t & G & Hs & HG & Hg & Hlen).
    unfold UdfModel.step_call. cbn [fst snd]. rewrite HF, Hs, (j_orig _ HJ _ _ HG Hg), (HAT _ _ HG Hg). cbn [orb].
    destruct (create_or_reuse s g G _ es) as [[s1 n1]|] eqn:Ec; [|done]. destruct (fns s1 !! n1) as [N|] eqn:EN; [|done].
    intros (s2 & H2 & [= <-])%pbind_ok.
    apply cor_spec in Ec as (HJ1 & HX1 & Hv1 & Hc1 & Hn1 & Hs1 & N' & HN' & HpN); [|done|done|done|by rewrite fmap_length].
    rewrite EN in HN'. injection HN' as <-.
    set (F' := if decide (t = res N) then _ else _) in H2.
    assert (HbF : similar F F' /\ sites F' = <[k := (n1, res N)]> (sites F)).
    { subst F'. case_decide; (split; [|done]); (split_and!; [done..|]); [by left|by right]. }
    destruct HbF as (Hsim & HS).
    destruct (visit_step rec s0 n s F F' s1 n1 s2) as (HM' & HF' & HX' & HX1'); [done|by split_and!|done..|].
    split; [done|]. exists F'. pose proof Hsim as (HpF & HbF & _). split_and!; [done|congruence|congruence|..].
    - assert (Hne : ∀ k', k' ≠ k → sites F' !! k' = sites F !! k') by (intros k' Hk'; rewrite HS; by apply list_lookup_insert_ne).
      assert (Hopk : ∀ k1 es1, (k1, es1) ∈ l1 ++ [(k, es)] → ∀ e k', e ∈ es1 → k' ∈ ids e → k' ≠ k).
      { intros k1 es1 H1 e k' He Hk' ->. assert (H1' : (k1, es1) ∈ calls_of b).
        { rewrite Hl. apply elem_of_app. apply elem_of_app in H1 as [H1|H1]; [by left|right]. apply elem_of_list_singleton in H1 as ->. by left. }
        destruct (ids_args _ _ _ _ _ Ha H1' He Hk') as (es' & Hes'). apply (Hk1 es'). apply elem_of_app in H1 as [H1|H1].
        - eapply prefix_kids; [apply calls_ordered|exact Hl|exact H1|exact Hes'].
        - apply elem_of_list_singleton in H1. injection H1 as -> ->. eapply (calls_ordered b); [exact Hl|exact Hes']. }
      intros k1 es1 H1. pose proof (Hopk _ _ H1) as Hop. apply elem_of_app in H1 as [H1|H1].
      + eapply donec_sites; [exact HpF|apply Hne; intros ->; by apply (Hk1 es1)| |eapply (donec_ext s); [done|done|by apply Hd]].
        intros e k' He Hk'. apply Hne. by eapply Hop.
      + apply elem_of_list_singleton in H1. injection H1 as -> ->. destruct HX1' as (HXf & _ & _). destruct (HXf _ _ EN) as (N2 & HN2 & HpN2 & _ & HrN2).
        exists n1, (res N), N2. split_and!.
        * rewrite HS. apply list_lookup_insert. by eapply lookup_lt_Some.
        * cbn. by left.
        * done.
        * rewrite HpN2, HpN, HpF. apply list_fmap_ext. intros i e Hi. apply typ_sites. intros k' Hk'. symmetry. apply Hne. eapply Hop; [|exact Hk']. by eapply elem_of_list_lookup_2.
        * intros HO. by apply HrN2.
    - intros k1 es1 H1 H2'. eapply rawc_sites; [|apply Hr; [done|]].
      + rewrite HS. apply list_lookup_insert_ne. intros <-. apply H2'. apply elem_of_app. right.
        rewrite (call_unique b k es es1); [by left|done..].
      + intros H3. apply H2'. apply elem_of_app. by left.
    - intros k1 e1 H1. by apply elem_of_nil in H1.
    - intros k1 e1 H1 H2'. eapply rawm_sites; [|by eapply Hrm]. rewrite HS. apply list_lookup_insert_ne. intros <-. by eapply call_map_disjoint.
  Qed.

  Lemma step_map_W rec s0 n b p l1 k e l2 s s' :
    rec_post rec → J s0 → n ∉ visited s0 → okname n → NoDup (ids b) → args_ok b → maps_of b = l1 ++ (k, e) :: l2 →
    W s0 n b p (calls_of b) l1 s → step_map rec n (k, e) s = POk s' → W s0 n b p (calls_of b) (l1 ++ [(k, e)]) s'.
  Proof.
    intros Hrec HJ0 Hn0 Hn Hnd Ha Hl (HM & F & HF & Hb & Hp & Hd & Hr & Hdm & Hrm).
    assert (Hin : (k, e) ∈ maps_of b) by (rewrite Hl; apply elem_of_app; right; by left).
    assert (Hkeys : NoDup ((maps_of b).*1)) by (unfold ids in Hnd; by apply NoDup_app in Hnd as (_ & _ & ?)).
    assert (Hk1 : ∀ e', (k, e') ∉ l1).
    { intros e' Hes. rewrite Hl, fmap_app, fmap_cons in Hkeys. apply NoDup_app in Hkeys as (_ & Hx & _). eapply (Hx k).
      - apply elem_of_list_fmap. by exists (k, e').
      - by left. }
    destruct HM as (HJ & HX & Hnv & Hsame & Hdone). destruct (Hrm _ _ Hin (Hk1 e)) as (g & t & G & Hs & HG & Hg & Hlen).
    unfold UdfModel.step_map. cbn [fst snd]. rewrite HF, Hs, (j_orig _ HJ _ _ HG Hg), (HAT _ _ HG Hg).
    destruct (typ (params F) (sites F) e) as [|v|w q|x] eqn:Et; try done.
    destruct (create_or_reuse s g G _ []) as [[s1 n1]|] eqn:Ec; [|done]. destruct (fns s1 !! n1) as [N|] eqn:EN; [|done].
    intros (s2 & H2 & [= <-])%pbind_ok.
    apply cor_spec in Ec as (HJ1 & HX1 & Hv1 & Hc1 & Hn1 & Hs1 & N' & HN' & HpN); [|done|done|done|done].
    rewrite EN in HN'. injection HN' as <-.
    set (rt' := Mat _ q) in H2. set (F' := if decide (t = rt') then _ else _) in H2.
    assert (HbF : similar F F' /\ sites F' = <[k := (n1, rt')]> (sites F)).
    { subst F'. case_decide; (split; [|done]); (split_and!; [done..|]); [by left|by right]. }
    destruct HbF as (Hsim & HS).
    destruct (visit_step rec s0 n s F F' s1 n1 s2) as (HM' & HF' & HX' & HX1'); [done|by split_and!|done..|].
    split; [done|]. exists F'. pose proof Hsim as (HpF & HbF & _).
    assert (Hne : ∀ k', k' ≠ k → sites F' !! k' = sites F !! k') by (intros k' Hk'; rewrite HS; by apply list_lookup_insert_ne).
    assert (Hck : ∀ k' es', (k', es') ∈ calls_of b → k' ≠ k) by (intros k' es' Hk' ->; by eapply call_map_disjoint).
    split_and!; [done|congruence|congruence|..].
    - intros k1 es1 H1. eapply donec_sites; [exact HpF|by eapply Hne, Hck| |eapply (donec_ext s); [done|done|by apply Hd]].
      intros e1 k' He Hk'. apply Hne. destruct (ids_args _ _ _ _ _ Ha H1 He Hk') as (es' & Hes').
      apply elem_of_list_split in H1 as (a & c & E). apply (Hck k' es'). rewrite E. apply elem_of_app. left. eapply (calls_ordered b); [exact E|exact Hes'].
    - intros k1 es1 H1 H2'. eapply rawc_sites; [|by apply Hr]. by eapply Hne, Hck.
    - assert (Hopk : ∀ k1 e1, (k1, e1) ∈ l1 ++ [(k, e)] → ∀ k', k' ∈ ids e1 → k' ≠ k).
      { intros k1 e1 H1 k' Hk' ->. assert (H1' : (k1, e1) ∈ maps_of b).
        { rewrite Hl. apply elem_of_app. apply elem_of_app in H1 as [H1|H1]; [by left|right]. apply elem_of_list_singleton in H1 as ->. by left. }
        unfold ids in Hk'. apply elem_of_app in Hk' as [Hk'|Hk'].
        - apply elem_of_list_fmap in Hk' as ([k2 es2] & -> & Hx). eapply (Hck _ es2); [by eapply calls_in_maps|done].
        - apply elem_of_list_fmap in Hk' as ([k2 e2] & -> & Hx). apply (Hk1 e2). cbn. apply elem_of_app in H1 as [H1|H1].
          + eapply prefix_kids; [apply maps_ordered|exact Hl|exact H1|exact Hx].
          + apply elem_of_list_singleton in H1. injection H1 as -> ->. eapply (maps_ordered b); [exact Hl|exact Hx]. }
      intros k1 e1 H1. pose proof (Hopk _ _ H1) as Hop. apply elem_of_app in H1 as [H1|H1].
      + eapply donem_sites; [exact HpF|apply Hne; intros ->; by apply (Hk1 e1)| |eapply (donem_ext s); [done|done|by apply Hdm]].
        intros k' Hk'. apply Hne. by apply Hop.
      + apply elem_of_list_singleton in H1. injection H1 as -> ->. destruct HX1' as (HXf & _ & _). destruct (HXf _ _ EN) as (N2 & HN2 & HpN2 & _ & HrN2).
        exists n1, rt', N2, w, q. split_and!.
        * rewrite HS. apply list_lookup_insert. by eapply lookup_lt_Some.
        * cbn. by left.
        * done.
        * rewrite HpF, <- Et. apply typ_sites. intros k' Hk'. apply Hne. by apply Hop.
        * by rewrite HpN2, HpN.
        * intros HO. subst rt'. by rewrite HrN2.
    - intros k1 e1 H1 H2'. eapply rawm_sites; [|eapply Hrm; [exact H1|]].
      + apply Hne. intros ->. apply H2'. apply elem_of_app. right. rewrite (map_unique b k e e1); [by left|done..].
      + intros H3. apply H2'. apply elem_of_app. by left.
  Qed.

  Lemma spec_fn_post gas : rec_post (spec_fn gas).
  Proof.
    induction gas as [|gas IH]; intros n s s' HJ Hn; [done|]. cbn [UdfModel.spec_fn]. case_decide as Hv.
    - intros [= <-]. split_and!; try done; apply Ext2_refl.
    - destruct (fns s !! n) as [F|] eqn:HF; [|done]. intros (s1 & H1 & H2)%pbind_ok.
      destruct (j_raw _ HJ _ _ HF Hv) as (Hnd & Ha & Hrc & Hrm).
      assert (HW0 : W s n (body F) (params F) [] [] (add_visited n s)).
      { split.
        - split_and!; [destruct HJ; constructor; cbn; try done|split_and!; cbn; eauto|by left|done|].
          + intros m X HX Hm. apply (j_raw0 m); [done|]. intros Hin. apply Hm. by right.
          + intros m Hm. apply elem_of_cons in Hm as [->|Hm]; [split; [by exists F|done]|by apply j_vis0].
          + intros v Hc. destruct (j_called0 _ Hc) as [? ?]. split; [by right|done].
          + intros m Hm. by right.
          + cbn. intros m Hm Hm1 Hm2. by apply elem_of_cons in Hm as [->|Hm].
        - exists F. split_and!; [done..| | | |].
          + intros k es Hk. by apply elem_of_nil in Hk.
          + intros k es Hk _. by apply Hrc.
          + intros k e Hk. by apply elem_of_nil in Hk.
          + intros k e Hk _. by eapply Hrm. }
      assert (HW1 : W s n (body F) (params F) (calls_of (body F)) [] s1).
      { eapply (pfold_prefix (fun l s1 => W s n (body F) (params F) l [] s1)); [|exact HW0|exact H1].
        intros l1 [k es] l2 s2 s3 Hl HW Hst. by eapply step_call_W. }
      assert (HW2 : W s n (body F) (params F) (calls_of (body F)) (maps_of (body F)) s').
      { eapply (pfold_prefix (fun l s1 => W s n (body F) (params F) (calls_of (body F)) l s1)); [|exact HW1|exact H2].
        intros l1 [k e] l2 s2 s3 Hl HW Hst. by eapply step_map_W. }
      destruct HW2 as ((HJ' & HX' & Hv' & Hs' & Hd') & F' & HF' & Hb & Hp & Hd & _ & Hdm & _).
      split_and!; try done; try apply HX'. intros m Hm Hm0. destruct (decide (m = n)) as [->|Hmn]; [|by apply Hd'].
      exists F'. split; [done|]. rewrite Hb. done.
  Qed.

  (** ** The pass *)
  Lemma J_init : J (init M0).
  Proof.
    constructor; cbn.
    - intros m F HF _. by eapply raw_orig.
    - done.
    - intros m Hm. by apply elem_of_nil in Hm.
    - intros m Hm. by apply elem_of_nil in Hm.
    - intros g v Hm. by apply elem_of_nil in Hm.
    - intros m F _ HF Hm. destruct HWF as [_ H]. by destruct (H _ _ HF) as (? & _).
    - intros m Hm. by apply elem_of_nil in Hm.
    - intros m [F HF]. destruct HWF as [_ H]. destruct (H _ _ HF) as (-> & _). done.
  Qed.
  (** Between the entry functions: all that has been visited is done, and main is visited or is as it was. *)
  Definition Top s : Prop := J s /\ (∀ m, m ∈ visited s → done_fn s m) /\ (main ∉ visited s → fns s !! main = M0 !! main).
  Lemma run_entry_top gas n s s' : Top s → is_Some (M0 !! n) → run_entry gas n s = POk s' → Top s' /\ (n = main → main ∈ visited s') /\ (main ∈ visited s → main ∈ visited s').
  Proof.
    intros (HJ & Hd & Hm) [F0 HF0]. unfold UdfModel.run_entry. destruct (decide (n = main)) as [->|Hn].
    - destruct (fns s !! main) as [F|] eqn:HF; [|done]. destruct (decide (main ∈ visited s)) as [Hv|Hv].
      + rewrite (bool_decide_eq_true_2 _ Hv), orb_true_r. cbn. intros [= <-]. split; [by split_and!|done].
      + rewrite (bool_decide_eq_false_2 _ Hv).
        assert (Ht : is_template F = false).
        { specialize (Hm Hv). destruct HWF as [(F1 & HF1 & Hp) _]. assert (F = F1) as -> by congruence. unfold is_template. by rewrite Hp. }
        rewrite Ht. assert (Htm : main ∉ templs s) by (intros Hin; by destruct (j_templs _ HJ _ Hin) as [_ ?]).
        rewrite (bool_decide_eq_false_2 _ Htm). cbn. intros H.
        assert (HJ1 : J (set_fn main (infer_fn F) s)).
        { assert (Hdom : ∀ m, is_Some (fns s !! m) → is_Some (<[main := infer_fn F]> (fns s) !! m)).
          { intros m Hm'. destruct (decide (m = main)) as [->|]; [rewrite lookup_insert; eauto|by rewrite lookup_insert_ne]. }
          destruct HJ. constructor; cbn [fns versions visited called templs next set_fn]; try done.
          - intros m X HX Hmv. destruct (decide (m = main)) as [->|]; [|rewrite lookup_insert_ne in HX by done; eauto].
            rewrite lookup_insert in HX. injection HX as <-. apply raw_infer. eauto.
          - intros g G HG Hg. rewrite lookup_insert_ne by done. eauto.
          - intros m Hmv. destruct (j_vis0 _ Hmv). eauto.
          - intros g v Hgv. destruct (j_vers0 _ _ Hgv) as (H1 & V & HV & HL). split; [done|]. exists V. rewrite lookup_insert_ne; [done|]. intros <-. done.
          - intros m X HO HX Hm2. rewrite lookup_insert_ne in HX by (intros <-; done). eauto.
          - intros m Hm'. apply j_fresh0. destruct (decide (m = main)) as [->|]; [by exists F|]. by rewrite lookup_insert_ne in Hm'. }
        destruct (spec_fn_post gas _ _ _ HJ1 (or_introl eq_refl) H) as (HJ2 & HX2 & Hv2 & Hs2 & Hd2).
        split; [|done]. split_and!; [done| |done]. intros m Hm2. destruct (decide (m ∈ visited s)) as [Hms|Hms]; [|by apply Hd2].
        assert (Hmm : m ≠ main) by by intros ->.
        assert (Hsame : fns s' !! m = fns s !! m) by (rewrite Hs2 by done; cbn; by rewrite lookup_insert_ne).
        destruct (Hd _ Hms) as (X & HX & Hdc & Hdm). exists X. rewrite Hsame. split; [done|].
        assert (HV : ∀ v V, v ∈ called s → fns s !! v = Some V → v ∈ called s' /\ fns s' !! v = Some V).
        { intros v V Hc HV. split; [by apply HX2|]. destruct (j_called _ HJ _ Hc) as [Hcv Hc2]. rewrite Hs2 by done. cbn. rewrite lookup_insert_ne; [done|]. by intros <-. }
        split.
        * intros k es Hk. destruct (Hdc _ _ Hk) as (v & t & V & H1 & H2 & H3 & H4). exists v, t, V. destruct (HV _ _ H2 H3). done.
        * intros k e Hk. destruct (Hdm _ _ Hk) as (v & t & V & w & q & H1 & H2 & H3 & H4). exists v, t, V, w, q. destruct (HV _ _ H2 H3). done.
    - rewrite (j_orig _ HJ _ _ HF0 Hn), (HAT _ _ HF0 Hn). cbn. intros [= <-]. split; [by split_and!|done].
  Qed.
  Lemma run_pass_top gas order s : (∀ n, n ∈ order → is_Some (M0 !! n)) → main ∈ order → run_pass gas order M0 = POk s → Top s /\ main ∈ visited s.
  Proof.
    intros Ho Hm H. unfold UdfModel.run_pass in H.
    assert (HT : Top s /\ (main ∈ order → main ∈ visited s)); [|destruct HT; eauto].
    eapply (pfold_prefix (fun l s => Top s /\ (main ∈ l → main ∈ visited s))); [| |exact H].
    - intros l1 n l2 s1 s2 Hl [HT Hv] Hr. assert (Hn : n ∈ order) by (rewrite Hl; apply elem_of_app; right; by left).
      destruct (run_entry_top _ _ _ _ HT (Ho _ Hn) Hr) as (HT' & H1 & H2). split; [done|].
      intros [Hin|Hin]%elem_of_app; [eauto|]. apply elem_of_list_singleton in Hin. by apply H1.
    - split; [|intros Hin; by apply elem_of_nil in Hin]. split_and!; [apply J_init| |done]. intros m Hin. by apply elem_of_nil in Hin.
  Qed.
  (** The functions that are kept are those that were visited; what they call is kept. *)
  Lemma kept_done s n F : Top s → main ∈ visited s → result s !! n = Some F →
    fns s !! n = Some F /\ (∀ k es, (k, es) ∈ calls_of (body F) → donec s F k es) /\ (∀ k e, (k, e) ∈ maps_of (body F) → donem s F k e).
  Proof.
    intros (HJ & Hd & _) Hm HF. unfold result in HF. apply map_filter_lookup_Some in HF as [HF Hk]. cbn in Hk.
    assert (Hv : n ∈ visited s).
    { unfold keep in Hk. apply orb_true_iff in Hk as [Hk|Hk]; [by apply bool_decide_eq_true in Hk as ->|].
      apply andb_true_iff in Hk as [Hk _]. apply bool_decide_eq_true in Hk. by apply (j_called _ HJ). }
    destruct (Hd _ Hv) as (F' & HF' & H1 & H2). rewrite HF in HF'. injection HF' as <-. done.
  Qed.
  Lemma called_kept s v V : J s → v ∈ called s → fns s !! v = Some V → result s !! v = Some V.
  Proof.
    intros HJ Hc HV. unfold result. apply map_filter_lookup_Some. split; [done|]. cbn. unfold keep. rewrite (bool_decide_eq_true_2 _ Hc).
    rewrite (bool_decide_eq_false_2 (v ∈ templs s)); [cbn [negb andb]; by rewrite orb_true_r|]. intros Hin. destruct (j_templs _ HJ _ Hin) as [H2 _]. by destruct (j_called _ HJ _ Hc) as [_ ?].
  Qed.
End types.
