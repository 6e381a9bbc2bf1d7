(** The inference accepts the programs whose labels are known, and the label-based simplifications do not change results. *)
From stdpp Require Import base numbers list strings sets.
From Coq Require Import Lia.
From Verif Require Import CppBase LabelsModel LabelsSpec LabelsProofs.

Section canon.
  Context {A : Type} (aty : A → vt).
  Notation frame := (list (string * A)).
  Implicit Types f : frame.

  Lemma inv_length t f : inv aty t f → length (f_cts t) = length f.
  Proof. intros [[H _] _]. apply Forall2_length in H. by rewrite fmap_length in H. Qed.
  Lemma type_by_label_found t f s p :
    inv aty t f → s_const s = true → find_col f (s_val s) = Some p → ∃ c, type_by_label t s = Ok c.
  Proof.
    intros Hi Hs Hf. unfold type_by_label, const_or_throw. rewrite Hs. cbn [obind].
    destruct (f_lbls t) as [ls|] eqn:El; [|eauto]. pose proof Hi as [[_ Hl] _]. rewrite (Hl ls El).
    eapply type_at_label_found; [by apply inv_length|done].
  Qed.
  Lemma omap_out_each {X Y} (g : X → outcome Y) l : (∀ x, x ∈ l → ∃ y, g x = Ok y) → ∃ r, omap_out g l = Ok r.
  Proof.
    induction l as [|x l IH]; intros H; cbn [omap_out]; [eauto|]. destruct (H x ltac:(constructor)) as [y ->].
    destruct IH as [r ->]; [intros z Hz; apply H; by constructor|]. cbn. eauto.
  Qed.
  Lemma omap_out_in {X Y} (g : X → outcome Y) l r x : omap_out g l = Ok r → x ∈ l → ∃ y, g x = Ok y.
  Proof.
    intros H Hx. apply omap_out_Ok in H. revert Hx. induction H as [|a b l r Hab _ IH]; intros Hx; [by apply not_elem_of_nil in Hx|].
    apply elem_of_cons in Hx as [->|Hx]; eauto.
  Qed.

  Lemma group_accepted keys aggs gk ga t f f' e :
    inv aty t f → infer aty e = Ok t → un_complete aty (UGroup keys aggs gk ga) → un_known aty (UGroup keys aggs gk ga) e →
    run_un (UGroup keys aggs gk ga) f = Ok f' → ∃ t', infer_group keys aggs t = Ok t'.
  Proof.
    intros Hi He (Hgk & Hga & Hc & Hk) (Hkc & Hac & Hlab) Hr. cbn [run_un] in Hr. unfold run_group in Hr.
    inv_ok Hr. inv_ok Hr. rename x into kcols, x0 into acols, E into Ekc, E0 into Eac.
    assert (Hwl : ∀ k, k ∈ keys → wildcard (s_val k) = true → f_lbls t = Some (f.*1)).
    { intros k Hin Hw. destruct (Hlab (ex_intro _ k (conj Hin Hw)) t He) as [ls El]. destruct Hi as [[_ Hl] _].
      by rewrite El, (Hl ls El). }
    unfold infer_group.
    destruct (omap_out_each (key_types t) keys) as [kts Hkts].
    { intros k Hin. pose proof (proj1 (Forall_forall _ _) Hkc k Hin) as Hs. unfold key_types, const_or_throw. rewrite Hs. cbn [obind].
      case_decide; [eauto|]. destruct (wildcard (s_val k)) eqn:Hw.
      - rewrite (Hwl k Hin Hw). apply types_of_name_found. by apply inv_length.
      - destruct Hk as [Hk|Hk]; [|destruct (Hk k Hin) as [Hk' _]; congruence].
        rewrite star_plain in Ekc by done. rewrite existsb_plain in Ekc by done.
        destruct (omap_out_in (get_col f) _ _ (s_val k) Ekc) as [p Hp]; [apply elem_of_list_fmap; eauto|]. apply get_col_Ok in Hp.
        destruct (type_by_label_found t f k p Hi Hs Hp) as [c ->]. cbn. eauto. }
    destruct (omap_out_each (agg_type t) aggs) as [ats Hats].
    { intros [fn s] Hin. pose proof (proj1 (Forall_forall _ _) Hac _ Hin) as Hs. cbn in Hs. unfold agg_type. cbn [fst snd].
      destruct (omap_out_in _ _ _ (fn, s_val s) Eac) as [p Hp]; [apply elem_of_list_fmap; exists (fn, s); done|]. cbn in Hp.
      apply get_col_Ok in Hp. destruct fn; eauto; eapply type_by_label_found; eauto. }
    destruct (omap_out_each (fun s => let* k := const_or_throw s in key_labels t k) keys) as [kls Hkls].
    { intros k Hin. pose proof (proj1 (Forall_forall _ _) Hkc k Hin) as Hs. unfold key_labels, const_or_throw. rewrite Hs. cbn [obind].
      case_decide as Es.
      - assert (Hw : wildcard (s_val k) = true) by (rewrite Es; vm_compute; done). rewrite (Hwl k Hin Hw). eauto.
      - destruct (wildcard (s_val k)) eqn:Hw; [|eauto]. rewrite (Hwl k Hin Hw). eauto. }
    destruct (omap_out_each (fun a : aggfn * sarg => let* l := const_or_throw a.2 in Ok (agg_label a.1 l)) aggs) as [als Hals].
    { intros [fn s] Hin. pose proof (proj1 (Forall_forall _ _) Hac _ Hin) as Hs. cbn in Hs. unfold const_or_throw. cbn. rewrite Hs. cbn. eauto. }
    rewrite Hkts, Hats, Hkls, Hals. cbn. eauto.
  Qed.
  Lemma un_accepted u e t f f' :
    inv aty t f → infer aty e = Ok t → un_complete aty u → un_known aty u e → run_un u f = Ok f' → ∃ t', infer_un u t = Ok t'.
  Proof.
    intros Hi He Hc Hk Hr. destruct u as [g|s|ps known|lo hi const|ls|p|keys aggs gk ga].
    - cbn. eauto.
    - destruct Hk as [Hs Hw]. cbn in Hr |- *. unfold infer_extract, const_or_throw. rewrite Hs. cbn [obind].
      destruct (wildcard (s_val s)) eqn:Ew.
      + destruct (Hw eq_refl t He) as [ls El]. rewrite El. pose proof Hi as [[_ Hl] _]. rewrite (Hl ls El).
        destruct (types_of_name_found (f_cts t) f (before_dot (s_val s)) (inv_length t f Hi)) as [ts ->]. cbn. eauto.
      + unfold run_extract in Hr. rewrite Ew in Hr. inv_ok Hr. apply get_col_Ok in E.
        destruct (type_by_label_found t f s x Hi Hs E) as [c ->]. cbn. eauto.
    - cbn. eauto.
    - cbn in Hc, Hr |- *. subst const. unfold run_slice in Hr. inv_ok Hr.
      destruct (slice_list_length lo hi (f_cts t) f x (inv_length t f Hi) E) as [r ->]. cbn. eauto.
    - cbn in Hk |- *. rewrite set_labels_loop_const by done. cbn. eauto.
    - cbn in Hk |- *. unfold const_or_throw. rewrite Hk. cbn. eauto.
    - cbn [infer_un]. eapply group_accepted; eauto.
  Qed.
  Lemma bin_accepted b l r tl tr fl fr f :
    inv aty tl fl → inv aty tr fr → infer aty l = Ok tl → infer aty r = Ok tr → bin_known aty b l r → run_bin b fl fr = Ok f →
    ∃ t, infer_bin b tl tr = Ok t.
  Proof.
    intros Hl Hr Hel Her Hk Hf. destruct b as [|j|j|j|lon j|lon ragg j]; cbn in *; try (by eauto).
    - destruct Hk as [H1 H2]. destruct (H1 tl Hel) as [a ->], (H2 tr Her) as [b ->]. eauto.
    - unfold run_semi in Hf. destruct (j_ok j fl fr); [|done]. inv_ok Hf. apply get_col_Ok in E.
      destruct (type_by_label_found tl fl lon x Hl Hk E) as [c ->]. unfold const_or_throw. rewrite Hk. cbn. eauto.
    - unfold run_groupjoin in Hf. destruct (j_ok j fl fr); [|done]. inv_ok Hf. inv_ok Hf. apply get_col_Ok in E. apply get_col_Ok in E0.
      destruct Hk as [H1 H2]. destruct (type_by_label_found tl fl lon x Hl H1 E) as [c ->].
      destruct (type_by_label_found tr fr ragg x0 Hr H2 E0) as [d ->]. unfold const_or_throw. rewrite H1, H2. cbn. eauto.
  Qed.
  Theorem infer_accepted e f : complete aty e → known aty e → run e = Ok f → ∃ t, infer aty e = Ok t.
  Proof.
    revert f. induction e as [const cs ls|cols ls|c|u e IH|b l IHl r IHr|c same e1 IH1 e2 IH2]; intros f Hc Hk Hr.
    - cbn. destruct const; eauto.
    - cbn in Hk |- *. rewrite omap_const by done. cbn. eauto.
    - cbn. eauto.
    - destruct Hc as [Hc1 Hc2], Hk as [Hk1 Hk2]. cbn in Hr. inv_ok Hr. destruct (IH x Hc1 Hk1 E) as [t Ht].
      cbn. rewrite Ht. cbn [obind]. eapply un_accepted; eauto. by eapply infer_sound.
    - destruct Hc as (Hc1 & Hc2 & Hc3), Hk as (Hk1 & Hk2 & Hk3). cbn in Hr. inv_ok Hr. inv_ok Hr.
      destruct (IHl x Hc1 Hk1 E) as [tl Htl], (IHr x0 Hc2 Hk2 E0) as [tr Htr]. cbn. rewrite Htl. cbn [obind]. rewrite Htr. cbn [obind].
      exact (bin_accepted b l r tl tr x x0 f (infer_sound aty l tl x Hc1 Htl E) (infer_sound aty r tr x0 Hc2 Htr E0) Htl Htr Hk3 Hr).
    - destruct Hc as (Hc1 & Hc2 & Hc3), Hk as (Hk1 & Hk2 & Hk3). cbn in Hr |- *. destruct c.
      + destruct (IH1 f Hc1 Hk1 Hr) as [t1 ->], Hk3 as [t2 ->]. cbn. eauto.
      + destruct (IH2 f Hc2 Hk2 Hr) as [t2 ->], Hk3 as [t1 ->]. cbn. eauto.
  Qed.

  (** ** Simplifications *)
  Lemma find_col_app f g l : find_col (f ++ g) l = match find_col g l with Some p => Some p | None => find_col f l end.
  Proof.
    induction f as [|p f IH]; cbn [app find_col]; [by destruct (find_col g l)|]. rewrite IH. destruct (find_col g l); [done|]. done.
  Qed.
  Lemma run_extract_plain l f f' : wildcard l = false → run_extract l f = Ok f' ↔ ∃ p, find_col f l = Some p /\ f' = [p].
  Proof.
    intros Hw. unfold run_extract. rewrite Hw. split.
    - intros H. inv_ok H. injection H as <-. apply get_col_Ok in E. eauto.
    - intros (p & Hp & ->). apply get_col_Ok in Hp. by rewrite Hp.
  Qed.
  Lemma run_colbind fl fr f : run_bin BColBind fl fr = Ok f → f = fl ++ fr /\ NoDup ((fl ++ fr).*1).
  Proof.
    cbn. intros H. apply make_frame_Ok in H as (H1 & H2 & HN); [|by rewrite !app_length, !fmap_length].
    assert (f = fl ++ fr) as -> by (apply frame_eq; by rewrite fmap_app). done.
  Qed.
  Lemma canon_sound e e' t f :
    canon aty e e' → complete aty e → plain e → infer aty e = Ok t → run e = Ok f → run e' = Ok f.
  Proof.
    intros H Hc Hp Hi Hr. destruct H as [e t0 s l He Hlen Hl Hs El|cols ls i c s Hls Hcols Hlen|l r t0 ls s He Hl Hs Hin|
      l r t0 ls s He Hl Hs Hin Hnl|e s|e t0 ss He Hs Hl].
    - cbn in Hr. inv_ok Hr. rewrite E. destruct Hc as [Hc _]. destruct (infer_sound aty e t0 x Hc He E) as [[_ Hrl] HN].
      specialize (Hrl _ Hl). destruct x as [|[l0 a] [|q x]]; try done. cbn in Hrl. injection Hrl as <-.
      destruct (wildcard (s_val s)) eqn:Ew.
      + rewrite run_extract_wild in Hr by (try done; cbn; apply NoDup_singleton). rewrite filter_cons in Hr. cbn [fst] in Hr.
        rewrite El in Hr. rewrite decide_True in Hr by done. cbn in Hr. congruence.
      + apply run_extract_plain in Hr as (p & Hf & ->); [|done]. cbn in Hf. rewrite decide_True in Hf by done. congruence.
    - cbn [run] in Hr. inv_ok Hr. destruct Hp as [_ Hp]. cbn in Hp. rename x into fr.
      assert (Hne : cols ≠ []) by (intros ->; done). assert (Hne2 : ls ≠ []) by (intros ->; done).
      destruct cols as [|c0 cols]; [done|]. destruct ls as [|s0 ls]; [done|].
      change (or_default (s_val <$> s0 :: ls) (length (c0 :: cols))) with (s_val <$> s0 :: ls) in E.
      apply make_frame_Ok in E as (H1 & H2 & HN); [|by rewrite !fmap_length].
      cbn [run_un] in Hr. apply run_extract_plain in Hr as (p & Hf & ->); [|done].
      assert (Hfi : fr !! i = Some (s_val s, m_data c)).
      { assert (Ha : fr.*1 !! i = Some (s_val s)) by (rewrite H1, list_lookup_fmap, Hls; done).
        assert (Hb : fr.*2 !! i = Some (m_data c)) by (rewrite H2, list_lookup_fmap, Hcols; done).
        rewrite list_lookup_fmap in Ha. rewrite list_lookup_fmap in Hb. destruct (fr !! i) as [[u v]|]; [|done]. cbn in Ha, Hb. congruence. }
      apply elem_of_list_lookup_2 in Hfi. pose proof (find_col_NoDup fr _ HN Hfi) as Hf'. cbn in Hf'. rewrite Hf in Hf'.
      injection Hf' as ->. cbn [run]. rewrite (make_frame_Ok_2 (or_default [] 1) [m_data c] eq_refl) by (cbn; apply NoDup_singleton).
      cbn [obind run_un]. unfold run_set. rewrite decide_True by done.
      exact (make_frame_Ok_2 [s_val s] [m_data c] eq_refl (NoDup_singleton _)).
    - cbn [run] in Hr. inv_ok Hr. inv_ok E. inv_ok E. apply run_colbind in E as [-> HN]. destruct Hp as [_ Hp]. cbn in Hp.
      cbn [run_un] in Hr. apply run_extract_plain in Hr as (p & Hf & ->); [|done].
      destruct Hc as [(Hc & _ & _) _]. destruct (infer_sound aty l t0 x0 Hc He E0) as [[_ Hrl] _]. rewrite (Hrl _ Hl) in Hin.
      cbn [run]. rewrite E0. cbn [obind run_un]. apply run_extract_plain; [done|]. exists p. split; [|done].
      apply elem_of_list_fmap in Hin as (q & Eq & Hq). rewrite Eq in Hf |- *.
      pose proof (find_col_NoDup (x0 ++ x1) q HN ltac:(apply elem_of_app; by left)) as Hq'. rewrite Hq' in Hf. injection Hf as <-.
      apply find_col_NoDup; [|done]. rewrite fmap_app in HN. by apply NoDup_app in HN as (? & _ & _).
    - cbn [run] in Hr. inv_ok Hr. inv_ok E. inv_ok E. apply run_colbind in E as [-> HN]. destruct Hp as [_ Hp]. cbn in Hp.
      cbn [run_un] in Hr. apply run_extract_plain in Hr as (p & Hf & ->); [|done].
      destruct Hc as [(_ & Hc & _) _]. destruct (infer_sound aty r t0 x1 Hc He E1) as [[_ Hrl] _]. rewrite (Hrl _ Hl) in Hin.
      cbn [run]. rewrite E1. cbn [obind run_un]. apply run_extract_plain; [done|]. exists p. split; [|done].
      rewrite find_col_app in Hf. destruct (find_col x1 (s_val s)) eqn:En; [done|]. by apply find_col_None in En.
    - cbn [run] in Hr. inv_ok Hr. inv_ok E. cbn [run]. rewrite E0. cbn [obind]. destruct (wildcard (s_val s)) eqn:Ew.
      + cbn [infer] in Hi. inv_ok Hi. inv_ok E1.
        assert (HN : NoDup (x0.*1)).
        { destruct Hc as [[Hc _] _]. destruct (infer_sound aty e x2 x0 Hc E2 E0) as [_ HN]. apply HN.
          cbn in E1. unfold infer_extract in E1. inv_ok E1. apply const_or_throw_Ok in E3 as [_ ->]. rewrite Ew in E1.
          destruct (f_lbls x2); [eauto|done]. }
        cbn [run_un] in E, Hr |- *. rewrite run_extract_wild in E by done. injection E as <-.
        rewrite run_extract_wild in Hr by (try done; by apply filter_fst_NoDup). injection Hr as <-.
        rewrite run_extract_wild by done. f_equal. symmetry. apply filter_all_true. intros p Hp'. by apply elem_of_list_filter in Hp' as [? _].
      + cbn [run_un] in E, Hr |- *. apply run_extract_plain in E as (p & Hf & ->); [|done].
        apply run_extract_plain in Hr as (q & Hg & ->); [|done]. apply run_extract_plain; [done|]. exists p. split; [done|].
        cbn in Hg. case_decide; [congruence|done].
    - cbn in Hr. inv_ok Hr. rewrite E. destruct Hc as [Hc _]. destruct (infer_sound aty e t0 x Hc He E) as [[_ Hrl] HN].
      unfold run_set in Hr. case_decide as Hlen; [|done]. rewrite (Hrl _ Hl) in Hr. rewrite make_frame_same in Hr; [done|].
      apply HN. rewrite Hl. eauto.
  Qed.
  Theorem step_sound e e' t f :
    step aty e e' → complete aty e → plain e → infer aty e = Ok t → run e = Ok f → run e' = Ok f.
  Proof.
    intros H. revert t f. induction H as [e e' H|u e e' _ IH|b l l' r _ IH|b l r r' _ IH|c s t0 t' e _ IH|c s t0 e e' _ IH];
      intros t f Hc Hp Hi Hr.
    - eapply canon_sound; eauto.
    - destruct Hc as [Hc _], Hp as [Hp _]. cbn [infer run] in *. inv_ok Hi. inv_ok Hr. by rewrite (IH x x0 Hc Hp E E0).
    - destruct Hc as (Hc & _), Hp as [Hp _]. cbn [infer run] in *. inv_ok Hi. inv_ok Hr. by rewrite (IH x x0 Hc Hp E E0).
    - destruct Hc as (_ & Hc & _), Hp as [_ Hp]. cbn [infer run] in *. inv_ok Hi. inv_ok Hi. inv_ok Hr. rewrite E1. cbn [obind].
      inv_ok Hr. by rewrite (IH x0 x2 Hc Hp E0 E2).
    - destruct Hc as (Hc & _), Hp as [Hp _]. cbn [infer run] in *. inv_ok Hi. destruct c; [|done]. by eapply IH.
    - destruct Hc as (_ & Hc & _), Hp as [_ Hp]. cbn [infer run] in *. inv_ok Hi. inv_ok Hi. destruct c; [done|]. by eapply IH.
  Qed.
End canon.
