(** Proofs about the inferred columns of frames. *)
From stdpp Require Import base numbers list strings sets.
From Coq Require Import Lia.
From Verif Require Import CppBase LabelsModel LabelsSpec.

Lemma obind_Ok {X Y} (m : outcome X) (k : X → outcome Y) y : obind m k = Ok y → ∃ x, m = Ok x /\ k x = Ok y.
Proof. destruct m; cbn [obind]; [eauto|done|done]. Qed.
Ltac inv_ok H := let x := fresh "x" in let E := fresh "E" in apply obind_Ok in H as (x & E & H).

Lemma omap_out_Ok {X Y} (f : X → outcome Y) l r : omap_out f l = Ok r ↔ Forall2 (fun x y => f x = Ok y) l r.
Proof.
  revert r. induction l as [|x l IH]; intros r; cbn [omap_out]; split.
  - intros [= <-]. constructor.
  - intros H. by apply Forall2_nil_inv_l in H as ->.
  - intros H. inv_ok H. inv_ok H. injection H as <-. constructor; [done|]. by apply IH.
  - intros H. apply Forall2_cons_inv_l in H as (y & r' & Hy & Hr & ->). rewrite Hy. cbn [obind].
    apply IH in Hr. by rewrite Hr.
Qed.

Section proofs.
  Context {A : Type} (aty : A → vt).
  Notation frame := (list (string * A)).
  Implicit Types f : frame.

  (** ** Run-time *)
  Lemma make_frame_Ok ls (cs : list A) f :
    length ls = length cs → make_frame ls cs = Ok f → f.*1 = ls /\ f.*2 = cs /\ NoDup (f.*1).
  Proof.
    intros Hl. unfold make_frame. rewrite decide_True by lia. rewrite take_ge by lia.
    case_decide as HN; [|done]. intros [= <-]. rewrite !fst_zip, !snd_zip in * by lia. done.
  Qed.
  Lemma make_frame_Ok_2 ls (cs : list A) : length ls = length cs → NoDup ls → make_frame ls cs = Ok (zip ls cs).
  Proof.
    intros Hl HN. unfold make_frame. rewrite decide_True by lia. rewrite take_ge by lia.
    rewrite decide_True; [done|]. by rewrite fst_zip by lia.
  Qed.
  Lemma frame_eq f f' : f.*1 = f'.*1 → f.*2 = f'.*2 → f = f'.
  Proof.
    revert f'. induction f as [|[a b] f IH]; intros [|[a' b'] f'] H1 H2; try done.
    cbn in *. injection H1 as -> H1. injection H2 as -> H2. f_equal. by apply IH.
  Qed.
  Lemma make_frame_same f : NoDup (f.*1) → make_frame (f.*1) (f.*2) = Ok f.
  Proof.
    intros HN. rewrite make_frame_Ok_2 by (rewrite ?fmap_length; done). f_equal.
    apply frame_eq; [rewrite fst_zip | rewrite snd_zip]; rewrite ?fmap_length; done.
  Qed.

  Lemma find_col_Some f l p : find_col f l = Some p → p ∈ f /\ p.1 = l.
  Proof.
    induction f as [|q f IH]; cbn [find_col]; [done|]. destruct (find_col f l) as [q'|] eqn:E.
    - intros [= ->]. destruct (IH eq_refl). split; [by constructor|done].
    - case_decide; [|done]. intros [= ->]. split; [by constructor|done].
  Qed.
  Lemma find_col_None f l : find_col f l = None → l ∉ f.*1.
  Proof.
    induction f as [|q f IH]; cbn [find_col]; [set_solver|]. destruct (find_col f l) as [q'|]; [done|].
    case_decide; [done|]. intros _. rewrite fmap_cons. specialize (IH eq_refl). set_solver.
  Qed.
  Lemma find_col_NoDup f p : NoDup (f.*1) → p ∈ f → find_col f p.1 = Some p.
  Proof.
    induction f as [|q f IH]; cbn [find_col]; [set_solver|]. rewrite fmap_cons, NoDup_cons. intros [Hq HN] Hp.
    apply elem_of_cons in Hp as [->|Hp].
    - destruct (find_col f q.1) as [r|] eqn:E; [|by rewrite decide_True].
      apply find_col_Some in E as [Hr Er]. destruct Hq. rewrite <- Er. apply elem_of_list_fmap. eauto.
    - by rewrite IH.
  Qed.
  Lemma get_col_Ok f l p : get_col f l = Ok p ↔ find_col f l = Some p.
  Proof. unfold get_col. destruct (find_col f l); split; congruence. Qed.
  Lemma get_cols_NoDup f f' : NoDup (f.*1) → (∀ p, p ∈ f' → p ∈ f) → omap_out (get_col f) (f'.*1) = Ok f'.
  Proof.
    intros HN H. apply omap_out_Ok. apply Forall2_fmap_l. apply Forall_Forall2_diag. apply Forall_forall.
    intros p Hp. apply get_col_Ok. apply find_col_NoDup; auto.
  Qed.
  Lemma filter_fst (P : string → Prop) `{∀ l, Decision (P l)} f :
    filter P (f.*1) = (filter (fun p => P p.1) f).*1.
  Proof.
    induction f as [|p f IH]; [done|]. rewrite fmap_cons, !filter_cons. case_decide; [rewrite fmap_cons; by f_equal | done].
  Qed.
  Lemma filter_fst_NoDup (P : string * A → Prop) `{∀ l, Decision (P l)} f : NoDup (f.*1) → NoDup ((filter P f).*1).
  Proof.
    induction f as [|p f IH]; intros HN; [done|]. rewrite fmap_cons, NoDup_cons in HN. destruct HN as [Hp HN].
    rewrite filter_cons. case_decide; [|by apply IH]. rewrite fmap_cons, NoDup_cons. split; [|by apply IH].
    intros Hin. apply Hp. apply elem_of_list_fmap in Hin as (q & -> & Hq). apply elem_of_list_fmap. exists q.
    apply elem_of_list_filter in Hq as [_ ?]. done.
  Qed.
  Lemma dedup_data seen i f : (dedup seen i f).*2 = f.*2.
  Proof. revert seen i. induction f as [|p f IH]; intros seen i; [done|]. cbn [dedup]. rewrite !fmap_cons. cbn. by rewrite IH. Qed.
  Lemma dedup_same seen i f : NoDup (f.*1) → (∀ l, l ∈ f.*1 → l ∉ seen) → dedup seen i f = f.
  Proof.
    revert seen i. induction f as [|[l a] f IH]; intros seen i HN H; [done|]. cbn [dedup fst snd].
    rewrite fmap_cons in HN, H. cbn [fst] in HN, H. apply NoDup_cons in HN as [Hl HN].
    rewrite decide_False by (apply H; constructor). f_equal. apply IH; [done|]. set_solver.
  Qed.
  Lemma dedup_fst f : NoDup (f.*1) → dedup [] 0 f = f.
  Proof. intros HN. apply dedup_same; [done|set_solver]. Qed.

  (** Extraction by a wildcard from a frame with different labels. *)
  Lemma run_extract_wild l f : NoDup (f.*1) → wildcard l = true →
    run_extract l f = Ok (filter (fun p => before_dot p.1 = before_dot l) f).
  Proof.
    intros HN Hw. unfold run_extract, labels_of_name. rewrite Hw. rewrite filter_fst.
    rewrite get_cols_NoDup; [|done|intros p Hp; by apply elem_of_list_filter in Hp as [_ ?]]. cbn [obind].
    f_equal. apply dedup_fst. by apply filter_fst_NoDup.
  Qed.

  (** ** Lookup of types *)
  Lemma type_at_label_right cts f l c p :
    Forall2 (right_type aty) cts (f.*2) → NoDup (f.*1) → type_at_label cts (f.*1) l = Ok c → find_col f l = Some p →
    right_type aty c p.2.
  Proof.
    revert cts. induction f as [|q f IH]; intros cts H HN Ht Hf; [done|].
    rewrite fmap_cons in H. rewrite fmap_cons in HN. apply Forall2_cons_inv_r in H as (c' & cts' & Hc & H & ->).
    apply NoDup_cons in HN as [Hq HN]. cbn [fmap list_fmap type_at_label] in Ht. cbn [find_col] in Hf.
    case_decide as El.
    - injection Ht as ->. destruct (find_col f l) as [r|] eqn:E.
      + apply find_col_Some in E as [Hr Er]. destruct Hq. rewrite El, <- Er. apply elem_of_list_fmap. eauto.
      + injection Hf as <-. done.
    - destruct (find_col f l) as [r|] eqn:E; [|done]. injection Hf as ->. eapply IH; eauto.
  Qed.
  Lemma type_at_label_found cts f l p :
    length cts = length f → find_col f l = Some p → ∃ c, type_at_label cts (f.*1) l = Ok c.
  Proof.
    intros Hl Hf. apply find_col_Some in Hf as [Hp <-]. revert cts Hl. induction Hp as [p f|p q f _ IH]; intros [|c cts] Hl; try done.
    - cbn. rewrite decide_True by done. eauto.
    - cbn. case_decide; [eauto|]. apply IH. cbn in Hl. lia.
  Qed.
  Lemma types_of_name_right cts f name ts :
    Forall2 (right_type aty) cts (f.*2) → types_of_name cts (f.*1) name = Ok ts →
    Forall2 (right_type aty) ts ((filter (fun p => before_dot p.1 = name) f).*2).
  Proof.
    revert cts ts. induction f as [|q f IH]; intros cts ts H Ht.
    - cbn in Ht. injection Ht as <-. constructor.
    - rewrite fmap_cons in H. apply Forall2_cons_inv_r in H as (c & cts' & Hc & H & ->).
      cbn [fmap list_fmap types_of_name tail] in Ht. rewrite filter_cons. case_decide.
      + inv_ok Ht. injection Ht as <-. rewrite fmap_cons. constructor; [done|]. by eapply IH.
      + by eapply IH.
  Qed.
  Lemma types_of_name_found cts f name : length cts = length f → ∃ ts, types_of_name cts (f.*1) name = Ok ts.
  Proof.
    revert cts. induction f as [|q f IH]; intros [|c cts] Hl; try done; cbn [fmap list_fmap types_of_name tail]; [by eauto|].
    destruct (IH cts) as [ts Hts]; [cbn in Hl; lia|]. rewrite Hts. case_decide; cbn; eauto.
  Qed.
  Lemma slice_list_fmap {X Y} (g : X → Y) lo hi l :
    slice_list lo hi (g <$> l) = match slice_list lo hi l with Ok r => Ok (g <$> r) | Throw => Throw | UB => UB end.
  Proof.
    unfold slice_list. rewrite fmap_length. destruct (slice_bounds _ lo hi) as [a b]. do 3 (case_decide; [done|]).
    by rewrite fmap_take, fmap_drop.
  Qed.
  Lemma slice_list_Forall2 {X Y} (R : X → Y → Prop) lo hi l k l' k' :
    Forall2 R l k → slice_list lo hi l = Ok l' → slice_list lo hi k = Ok k' → Forall2 R l' k'.
  Proof.
    intros H. unfold slice_list. rewrite (Forall2_length _ _ _ H). destruct (slice_bounds _ lo hi) as [a b].
    do 3 (case_decide; [done|]). intros [= <-] [= <-]. by apply Forall2_take, Forall2_drop.
  Qed.
  Lemma slice_list_length {X Y} lo hi (l : list X) (k : list Y) r :
    length l = length k → slice_list lo hi k = Ok r → ∃ r', slice_list lo hi l = Ok r'.
  Proof.
    intros H. unfold slice_list. rewrite H. destruct (slice_bounds _ lo hi) as [a b]. do 3 (case_decide; [done|]). eauto.
  Qed.

  (** ** Soundness *)
  Definition inv (t : ftype) (f : frame) : Prop := right aty t f /\ (is_Some (f_lbls t) → NoDup (f.*1)).

  Lemma const_or_throw_Ok s l : const_or_throw s = Ok l ↔ s_const s = true /\ l = s_val s.
  Proof. unfold const_or_throw. destruct (s_const s); split; [by intros [= <-] | by intros [_ ->] | done | by intros []]. Qed.
  Lemma type_by_label_right t f s c p : inv t f → type_by_label t s = Ok c → find_col f (s_val s) = Some p → right_type aty c p.2.
  Proof.
    intros [[Ht Hl] HN] H Hf. unfold type_by_label in H. inv_ok H. apply const_or_throw_Ok in E as [_ ->].
    destruct (f_lbls t) as [ls|] eqn:El; [|injection H as <-; by left].
    specialize (Hl ls El) as ->. eapply type_at_label_right; eauto.
  Qed.
  Lemma inv_single c l (a : A) : right_type aty c a → inv (FT [c] (Some [l])) [(l, a)].
  Proof.
    intros H. split; [split|].
    - constructor; [done|constructor].
    - intros ls [= <-]. done.
    - intros _. cbn. apply NoDup_singleton.
  Qed.
  Lemma keeps_types g (cts : list (option vt)) (cs : list A) :
    keeps aty g → Forall2 (right_type aty) cts cs → Forall2 (right_type aty) cts (g <$> cs).
  Proof. intros Hg H. apply Forall2_fmap_r. eapply Forall2_impl; [exact H|]. unfold right_type. intros x y Hxy. cbn. by rewrite (Hg y). Qed.

  Lemma extract_sound s t t' f f' : inv t f → infer_extract s t = Ok t' → run_extract (s_val s) f = Ok f' → inv t' f'.
  Proof.
    intros Hi H Hr. unfold infer_extract in H. inv_ok H. apply const_or_throw_Ok in E as [_ ->].
    destruct (wildcard (s_val s)) eqn:Hw.
    - destruct Hi as [[Ht Hl] HN]. destruct (f_lbls t) as [ls|] eqn:El; [|done]. inv_ok H. injection H as <-.
      specialize (Hl ls El) as ->. specialize (HN ltac:(eauto)). rewrite run_extract_wild in Hr by done. injection Hr as <-.
      split; [split|].
      + cbn. by eapply types_of_name_right.
      + intros ls [= <-]. unfold labels_of_name. by rewrite filter_fst.
      + intros _. by apply filter_fst_NoDup.
    - inv_ok H. injection H as <-. unfold run_extract in Hr. rewrite Hw in Hr. inv_ok Hr. injection Hr as <-.
      apply get_col_Ok in E0. pose proof (find_col_Some _ _ _ E0) as [_ Hp]. rename x0 into p.
      destruct p as [l a]. cbn [fst] in Hp. subst l. apply inv_single. exact (type_by_label_right _ _ _ _ _ Hi E E0).
  Qed.

  Lemma set_labels_loop_None ls r : set_labels_loop None ls = Ok r → r = None.
  Proof. induction ls as [|s ls IH]; cbn [set_labels_loop]; [congruence|]. destruct (s_const s); [done|exact IH]. Qed.
  Lemma set_labels_loop_Some acc ls r l : set_labels_loop (Some acc) ls = Ok r → r = Some l → l = acc ++ (s_val <$> ls).
  Proof.
    revert acc. induction ls as [|s ls IH]; intros acc; cbn [set_labels_loop].
    - intros [= <-] [= <-]. by rewrite app_nil_r.
    - destruct (s_const s).
      + intros H Hr. rewrite (IH _ H Hr), fmap_cons, <- app_assoc. done.
      + intros H Hr. apply set_labels_loop_None in H. congruence.
  Qed.
  Lemma set_labels_loop_const acc ls :
    Forall (fun s => s_const s = true) ls → set_labels_loop (Some acc) ls = Ok (Some (acc ++ (s_val <$> ls))).
  Proof.
    revert acc. induction ls as [|s ls IH]; intros acc H; cbn [set_labels_loop].
    - by rewrite app_nil_r.
    - apply Forall_cons in H as [Hs H]. rewrite Hs. rewrite (IH _ H), fmap_cons, <- app_assoc. done.
  Qed.

  Lemma omap_const ls : Forall (fun s => s_const s = true) ls → omap_out const_or_throw ls = Ok (s_val <$> ls).
  Proof.
    intros H. apply omap_out_Ok. apply Forall2_fmap_r. apply Forall_Forall2_diag. eapply Forall_impl; [exact H|].
    intros s Hs. by apply const_or_throw_Ok.
  Qed.
  Lemma omap_const_inv ls r : omap_out const_or_throw ls = Ok r → r = s_val <$> ls.
  Proof.
    intros H. apply omap_out_Ok in H. induction H as [|s l ls r Hs _ IH]; [done|].
    apply const_or_throw_Ok in Hs as [_ ->]. by rewrite IH.
  Qed.

  (** *** Groups *)
  Lemma group_plain_keys t f keys kts kls kcols :
    inv t f → (∀ k, k ∈ keys → wildcard (s_val k) = false) →
    omap_out (key_types t) keys = Ok kts →
    omap_out (fun s => let* k := const_or_throw s in key_labels t k) keys = Ok kls →
    omap_out (get_col f) (s_val <$> keys) = Ok kcols →
    Forall2 (right_type aty) (concat kts) (kcols.*2) /\ concat kls = kcols.*1.
  Proof.
    intros Hi. revert kts kls kcols. induction keys as [|k keys IH]; intros kts kls kcols Hw H1 H2 H3.
    - cbn in *. injection H1 as <-. injection H2 as <-. injection H3 as <-. by split; [constructor|].
    - cbn [omap_out fmap list_fmap] in *. inv_ok H1. inv_ok H1. injection H1 as <-. inv_ok H2. inv_ok H2. injection H2 as <-.
      inv_ok H3. inv_ok H3. injection H3 as <-.
      assert (Hk : wildcard (s_val k) = false) by (apply Hw; constructor).
      assert (Hns : s_val k ≠ "*"%string) by (intros Hs; rewrite Hs in Hk; vm_compute in Hk; done).
      destruct (IH x0 x2 x4 ltac:(intros k' Hk'; apply Hw; by constructor) E0 E2 E4) as [IH1 IH2].
      unfold key_types in E. inv_ok E. apply const_or_throw_Ok in E5 as [_ ->].
      rewrite decide_False in E by done. rewrite Hk in E. inv_ok E. injection E as <-.
      inv_ok E1. apply const_or_throw_Ok in E as [_ ->]. unfold key_labels in E1. rewrite decide_False in E1 by done.
      rewrite Hk in E1. injection E1 as <-.
      apply get_col_Ok in E3. pose proof (find_col_Some _ _ _ E3) as [_ Hp].
      cbn [concat app fmap list_fmap]. split.
      + constructor; [|done]. exact (type_by_label_right _ _ _ _ _ Hi E5 E3).
      + by rewrite Hp, IH2.
  Qed.
  Lemma star_bind f aggs keys :
    keys ≫= star_of_key f aggs = concat (star_of_key f aggs <$> keys).
  Proof. induction keys as [|k keys IH]; [done|]. rewrite bind_cons. cbn. by rewrite IH. Qed.
  Lemma filter_all_true {X} (P : X → Prop) `{∀ x, Decision (P x)} (l : list X) : (∀ x, x ∈ l → P x) → filter P l = l.
  Proof.
    induction l as [|x l IH]; intros Hx; [done|]. rewrite filter_cons, decide_True by (apply Hx; constructor).
    f_equal. apply IH. intros y Hy. apply Hx. by constructor.
  Qed.
  (** The columns of one wildcard key. *)
  Definition wild_cols f (k : string) : frame :=
    if decide (k = "*"%string) then f else filter (fun p => before_dot p.1 = before_dot k) f.
  Lemma star_of_key_cols f aggs k :
    wildcard k = true → (k = "*"%string → aggs = []) → star_of_key f aggs k = (wild_cols f k).*1.
  Proof.
    intros Hw Ha. unfold star_of_key, wild_cols. case_decide as Ek.
    - rewrite (Ha Ek). apply filter_all_true. intros l _. apply not_elem_of_nil.
    - rewrite Hw. unfold labels_of_name. apply filter_fst.
  Qed.
  Lemma wild_cols_sub f k p : p ∈ wild_cols f k → p ∈ f.
  Proof. unfold wild_cols. case_decide; [done|]. intros Hp. by apply elem_of_list_filter in Hp as [_ ?]. Qed.
  Lemma group_wild_keys t f keys aggs kts kls :
    inv t f → (∀ k, k ∈ keys → wildcard (s_val k) = true /\ (s_val k = "*"%string → aggs = [])) →
    omap_out (key_types t) keys = Ok kts →
    omap_out (fun s => let* k := const_or_throw s in key_labels t k) keys = Ok kls →
    (s_val <$> keys) ≫= star_of_key f aggs = ((s_val <$> keys) ≫= wild_cols f).*1 /\
    Forall2 (right_type aty) (concat kts) (((s_val <$> keys) ≫= wild_cols f).*2) /\
    concat kls = ((s_val <$> keys) ≫= wild_cols f).*1.
  Proof.
    intros [[Ht Hl] HN]. revert kts kls. induction keys as [|k keys IH]; intros kts kls Hw H1 H2.
    - cbn in *. injection H1 as <-. injection H2 as <-. repeat split; constructor.
    - cbn [omap_out] in *. inv_ok H1. inv_ok H1. injection H1 as <-. inv_ok H2. inv_ok H2. injection H2 as <-.
      destruct (Hw k ltac:(constructor)) as [Hk Ha].
      destruct (IH x0 x2 ltac:(intros k' Hk'; apply Hw; by constructor) E0 E2) as (IH0 & IH1 & IH2).
      rewrite fmap_cons, !bind_cons, !fmap_app, IH0. cbn [concat]. rewrite IH2.
      rewrite (star_of_key_cols f aggs _ Hk Ha).
      assert (Forall2 (right_type aty) x ((wild_cols f (s_val k)).*2) /\ x1 = (wild_cols f (s_val k)).*1) as [Hx ->].
      { unfold key_types in E. inv_ok E. apply const_or_throw_Ok in E3 as [_ ->].
        inv_ok E1. apply const_or_throw_Ok in E3 as [_ ->]. unfold key_labels in E1. unfold wild_cols.
        destruct (f_lbls t) as [ls|] eqn:El; [|by repeat case_decide; try rewrite Hk in E1].
        specialize (Hl ls El) as ->. case_decide as Es.
        - injection E as <-. injection E1 as <-. done.
        - rewrite Hk in E, E1. injection E1 as <-. split; [by eapply types_of_name_right|]. unfold labels_of_name. apply filter_fst. }
      split; [done|]. split; [|done]. by apply Forall2_app.
  Qed.
  Lemma group_agg_types t f (aggs : list (aggfn * sarg)) ats (acols : frame) (ga : frame → aggfn → A → A) :
    inv t f → agg_keeps aty ga → (∀ a, a ∈ aggs → a.1 ≠ COUNT) →
    omap_out (agg_type t) aggs = Ok ats →
    omap_out (fun a : aggfn * string => get_col f a.2) ((fun a : aggfn * sarg => (a.1, s_val a.2)) <$> aggs) = Ok acols →
    Forall2 (right_type aty) ats
      (zip_with (fun (a : aggfn * string) p => ga f a.1 p) ((fun a : aggfn * sarg => (a.1, s_val a.2)) <$> aggs) (acols.*2)).
  Proof.
    intros Hi Hg. revert ats acols. induction aggs as [|[fn s] aggs IH]; intros ats acols Hc H1 H2.
    - cbn in *. injection H1 as <-. injection H2 as <-. constructor.
    - cbn [omap_out fmap list_fmap fst snd] in *. inv_ok H1. inv_ok H1. injection H1 as <-. inv_ok H2. inv_ok H2. injection H2 as <-.
      cbn [zip_with fmap list_fmap fst snd]. constructor; [|apply IH; try done; intros a Ha; apply Hc; by constructor].
      apply get_col_Ok in E1. unfold right_type. rewrite Hg. specialize (Hc (fn, s) ltac:(constructor)).
      unfold agg_type in E. cbn [fst snd] in E, Hc.
      destruct fn; cbn [agg_vt]; try done; try (exact (type_by_label_right _ _ _ _ _ Hi E E1)).
      injection E as <-. by right.
  Qed.
  Lemma group_agg_labels (aggs : list (aggfn * sarg)) als :
    omap_out (fun a : aggfn * sarg => let* l := const_or_throw a.2 in Ok (agg_label a.1 l)) aggs = Ok als →
    als = (fun a : aggfn * string => agg_label a.1 a.2) <$> ((fun a : aggfn * sarg => (a.1, s_val a.2)) <$> aggs).
  Proof.
    revert als. induction aggs as [|[fn s] aggs IH]; intros als H; cbn [omap_out] in H; [by injection H as <-|].
    inv_ok H. inv_ok H. injection H as <-. inv_ok E. apply const_or_throw_Ok in E1 as [_ ->]. injection E as <-.
    cbn [fmap list_fmap fst snd]. f_equal. by apply IH.
  Qed.
  Lemma existsb_plain (keys : list sarg) :
    (∀ k, k ∈ keys → wildcard (s_val k) = false) → existsb wildcard (s_val <$> keys) = false.
  Proof.
    induction keys as [|k keys IH]; intros H; [done|]. cbn. rewrite (H k) by constructor. cbn. apply IH. intros k' Hk. apply H. by constructor.
  Qed.
  Lemma star_plain f aggs (keys : list sarg) :
    (∀ k, k ∈ keys → wildcard (s_val k) = false) → (s_val <$> keys) ≫= star_of_key f aggs = [].
  Proof.
    induction keys as [|k keys IH]; intros H; [done|]. rewrite fmap_cons, bind_cons, IH; [|intros k' Hk; apply H; by constructor].
    rewrite app_nil_r. unfold star_of_key. specialize (H k ltac:(constructor)).
    rewrite decide_False by (intros Hs; rewrite Hs in H; vm_compute in H; done). by rewrite H.
  Qed.
  Lemma omap_out_length {X Y} (g : X → outcome Y) l r : omap_out g l = Ok r → length l = length r.
  Proof. intros H. apply omap_out_Ok in H. exact (Forall2_length _ _ _ H). Qed.
  (** The kernel's key columns, when its result is a frame: those of the plain keys, or those of the wildcards. *)
  Lemma group_sound keys aggs gk ga t t' f f' :
    inv t f → un_complete aty (UGroup keys aggs gk ga) → infer_group keys aggs t = Ok t' →
    run_un (UGroup keys aggs gk ga) f = Ok f' → inv t' f'.
  Proof.
    intros Hi (Hgk & Hga & Hc & Hk) H Hr. unfold infer_group in H. inv_ok H. inv_ok H. inv_ok H. inv_ok H. injection H as <-.
    rename x into kts, x0 into ats, x1 into kls, x2 into als, E into Ekt, E0 into Eat, E1 into Ekl, E2 into Eal.
    cbn [run_un] in Hr. unfold run_group in Hr. inv_ok Hr. inv_ok Hr. rename x into kcols, x0 into acols, E into Ekc, E0 into Eac.
    assert (Forall2 (right_type aty) (concat kts) (kcols.*2) /\ concat kls = kcols.*1) as [Hkt Hkl].
    { destruct Hk as [Hk|Hk].
      - rewrite star_plain in Ekc by done. rewrite existsb_plain in Ekc by done. eapply group_plain_keys; eauto.
      - destruct (group_wild_keys t f keys
          (((fun a : aggfn * sarg => (a.1, s_val a.2)) <$> aggs).*2) kts kls Hi) as (Hs & Ht' & Hl'); [|done|done|].
        { intros k Hkk. destruct (Hk k Hkk) as [? Ha]. split; [done|]. intros Hs. by rewrite (Ha Hs). }
        rewrite Hs in Ekc. set (W := (s_val <$> keys) ≫= wild_cols f) in *.
        destruct (decide (keys = [])) as [->|Hne].
        { cbn in Ekt, Ekl. injection Ekt as <-. injection Ekl as <-. cbn in Ekc. injection Ekc as <-. by split; [constructor|]. }
        assert (HN : NoDup (f.*1)).
        { destruct Hi as [_ HN]. apply HN. destruct keys as [|k keys]; [done|]. destruct (Hk k ltac:(constructor)) as [Hw _].
          cbn [omap_out] in Ekl. inv_ok Ekl. inv_ok E. apply const_or_throw_Ok in E0 as [_ ->]. unfold key_labels in E.
          destruct (f_lbls t); [eauto|]. case_decide; [done|]. by rewrite Hw in E. }
        assert (HW : ∀ p, p ∈ W → p ∈ f).
        { intros p Hp. unfold W in Hp. apply elem_of_list_bind in Hp as (k & Hp & _). by eapply wild_cols_sub. }
        assert (Hwe : existsb wildcard (s_val <$> keys) = true).
        { destruct keys as [|k keys]; [done|]. cbn. by destruct (Hk k ltac:(constructor)) as [-> _]. }
        rewrite Hwe in Ekc. destruct (W.*1) as [|w ws] eqn:EW; [done|]. rewrite <- EW in *. rewrite get_cols_NoDup in Ekc by done.
        injection Ekc as <-. done. }
    pose proof (group_agg_types t f aggs ats acols ga Hi Hga Hc Eat Eac) as Hat.
    pose proof (group_agg_labels aggs als Eal) as Hal.
    apply make_frame_Ok in Hr as (H1 & H2 & HN).
    2:{ rewrite !app_length, !fmap_length, zip_with_length, !fmap_length. apply omap_out_length in Eac. rewrite fmap_length in Eac. lia. }
    split; [split|].
    - unfold right_types. cbn [f_cts]. rewrite H2. apply Forall2_app; [|done]. by apply keeps_types.
    - intros ls [= <-]. by rewrite H1, Hkl, Hal.
    - done.
  Qed.

  Lemma un_sound u t t' f f' : inv t f → un_complete aty u → infer_un u t = Ok t' → run_un u f = Ok f' → inv t' f'.
  Proof.
    intros Hi Hc H Hr. destruct u as [g|s|ps known|lo hi const|ls|p|keys aggs gk ga].
    - cbn in H, Hr. injection H as <-. unfold run_rows in Hr. apply make_frame_Ok in Hr as (H1 & H2 & HN); [|by rewrite !fmap_length].
      destruct Hi as [[Ht Hl] _]. split; [split|done].
      + unfold right_types. rewrite H2. by apply keeps_types.
      + intros ls El. rewrite H1. auto.
    - eapply extract_sound; eauto.
    - cbn in Hc, H, Hr. subst known. injection H as <-. unfold run_pos in Hr. inv_ok Hr. injection Hr as <-.
      split; [split|]; cbn.
      + unfold right_types. cbn [f_cts]. rewrite dedup_data. apply omap_out_length in E. clear -E. revert x E.
        induction ps as [|z ps IH]; intros [|p x] E; try done; [constructor|]. cbn. constructor; [by left|]. apply IH. cbn in E. lia.
      + intros ls [=].
      + intros [? [=]].
    - cbn in Hc, H, Hr. subst const. inv_ok H. injection H as <-. unfold run_slice in Hr. inv_ok Hr. injection Hr as <-.
      split; [split|]; cbn.
      + unfold right_types. cbn [f_cts]. rewrite dedup_data. destruct Hi as [[Ht _] _].
        eapply slice_list_Forall2; [exact Ht|done|]. by rewrite slice_list_fmap, E0.
      + intros ls [=].
      + intros [? [=]].
    - cbn in H, Hr. inv_ok H. injection H as <-. unfold run_set in Hr. case_decide as El; [|done].
      apply make_frame_Ok in Hr as (H1 & H2 & HN); [|by rewrite El, fmap_length]. destruct Hi as [[Ht _] _]. split; [split|]; cbn.
      + unfold right_types. cbn [f_cts]. by rewrite H2.
      + intros l Hl. cbn in Hl. rewrite H1. exact (set_labels_loop_Some _ _ _ _ E Hl).
      + done.
    - cbn in H, Hr. inv_ok H. injection H as <-. apply const_or_throw_Ok in E as [_ ->]. unfold run_prefix in Hr.
      apply make_frame_Ok in Hr as (H1 & H2 & HN); [|by rewrite !fmap_length]. destruct Hi as [[Ht Hl] _]. split; [split|]; cbn.
      + unfold right_types. cbn [f_cts]. by rewrite H2.
      + intros ls. cbn. destruct (f_lbls t) as [l0|] eqn:El; [|done]. intros [= <-]. rewrite H1. by rewrite (Hl l0 El).
      + done.
    - eapply group_sound; eauto.
  Qed.
  Lemma join_sound j tl tr fl fr f :
    inv tl fl → inv tr fr → join_keeps aty j → run_join j fl fr = Ok f →
    Forall2 (right_type aty) (f_cts tl ++ f_cts tr) (f.*2) /\ f.*1 = fl.*1 ++ fr.*1 /\ NoDup (f.*1).
  Proof.
    intros Hl Hr Hj H. unfold run_join in H. destruct (j_ok j fl fr); [|done].
    apply make_frame_Ok in H as (H1 & H2 & HN); [|by rewrite !app_length, !fmap_length]. split; [|done].
    rewrite H2. destruct (Hj fl fr) as [Hk1 Hk2]. apply Forall2_app; apply keeps_types; try done; [apply Hl|apply Hr].
  Qed.
  Lemma bin_sound b l r tl tr t fl fr f :
    infer aty l = Ok tl → infer aty r = Ok tr → bin_complete aty b l r →
    inv tl fl → inv tr fr → infer_bin b tl tr = Ok t → run_bin b fl fr = Ok f → inv t f.
  Proof.
    intros Hel Her Hc Hl Hr H Hf. destruct b as [|j|j|j|lon j|lon ragg j].
    - cbn in H, Hf. destruct (f_lbls tl) as [a|] eqn:Ea; [|done]. destruct (f_lbls tr) as [b|] eqn:Eb; [|done]. injection H as <-.
      apply make_frame_Ok in Hf as (H1 & H2 & HN); [|by rewrite !app_length, !fmap_length]. split; [split|]; cbn.
      + unfold right_types. cbn. rewrite H2. apply Forall2_app; [apply Hl|apply Hr].
      + intros ls [= <-]. rewrite H1. destruct Hl as [[_ Hl] _], Hr as [[_ Hr] _]. by rewrite (Hl a Ea), (Hr b Eb).
      + done.
    - destruct Hc as (Hj & Hll & Hlr). cbn in H, Hf. injection H as <-.
      destruct (join_sound j tl tr fl fr f Hl Hr Hj Hf) as (H1 & H2 & HN). split; [split|]; cbn; [done| |done].
      intros ls [= <-]. destruct (Hll tl Hel) as [a Ea], (Hlr tr Her) as [b Eb]. rewrite Ea, Eb. cbn.
      destruct Hl as [[_ Hl] _], Hr as [[_ Hr] _]. by rewrite H2, (Hl a Ea), (Hr b Eb).
    - destruct Hc as (Hj & Hll & Hlr). cbn in H, Hf. injection H as <-.
      destruct (join_sound j tl tr fl fr f Hl Hr Hj Hf) as (H1 & H2 & HN). split; [split|]; cbn; [done| |done].
      intros ls [= <-]. destruct (Hll tl Hel) as [a Ea], (Hlr tr Her) as [b Eb]. rewrite Ea, Eb. cbn.
      destruct Hl as [[_ Hl] _], Hr as [[_ Hr] _]. by rewrite H2, (Hl a Ea), (Hr b Eb).
    - cbn in H, Hf. injection H as <-. destruct (join_sound j tl tr fl fr f Hl Hr Hc Hf) as (H1 & H2 & HN). split; [split|]; cbn; [done| |done].
      intros ls. cbn. destruct (f_lbls tl) as [a|] eqn:Ea; [|done]. destruct (f_lbls tr) as [b|] eqn:Eb; [|done]. intros [= <-].
      destruct Hl as [[_ Hl] _], Hr as [[_ Hr] _]. by rewrite H2, (Hl a Ea), (Hr b Eb).
    - cbn in H, Hf. inv_ok H. inv_ok H. injection H as <-. unfold run_semi in Hf. destruct (j_ok j fl fr); [|done]. inv_ok Hf.
      apply const_or_throw_Ok in E0 as [_ ->]. apply get_col_Ok in E1. apply make_frame_Ok in Hf as (H1 & H2 & HN); [|done].
      split; [split|]; cbn.
      + unfold right_types. cbn. rewrite H2. constructor; [|constructor]. unfold right_type. destruct (Hc fl fr) as [Hk _]. rewrite Hk.
        exact (type_by_label_right _ _ _ _ _ Hl E E1).
      + intros ls [= <-]. by rewrite H1.
      + done.
    - cbn in H, Hf. inv_ok H. inv_ok H. inv_ok H. inv_ok H. injection H as <-. unfold run_groupjoin in Hf.
      destruct (j_ok j fl fr); [|done]. inv_ok Hf. inv_ok Hf.
      apply const_or_throw_Ok in E1 as [_ ->]. apply const_or_throw_Ok in E2 as [_ ->]. apply get_col_Ok in E3. apply get_col_Ok in E4.
      apply make_frame_Ok in Hf as (H1 & H2 & HN); [|done]. destruct (Hc fl fr) as [Hk1 Hk2].
      split; [split|]; cbn.
      + unfold right_types. cbn. rewrite H2. constructor; [|constructor; [|constructor]]; unfold right_type.
        * rewrite Hk1. exact (type_by_label_right _ _ _ _ _ Hl E E3).
        * rewrite Hk2. exact (type_by_label_right _ _ _ _ _ Hr E0 E4).
      + intros ls [= <-]. by rewrite H1.
      + done.
  Qed.
  Lemma common_sound same t1 t2 f : length (f_cts t1) = length (f_cts t2) → inv t1 f \/ inv t2 f → inv (common same t1 t2) f.
  Proof.
    intros Hl Hi. unfold common. rewrite decide_True by done. split; [split|].
    - unfold right_types. cbn. destruct Hi as [[[Ht _] _]|[[Ht _] _]]; unfold right_types in Ht.
      + clear -Ht Hl. revert Ht Hl. generalize (f_cts t2) as d. generalize (f.*2) as cs. generalize (f_cts t1) as c.
        intros c cs d H. revert d. induction H as [|x a c cs Hx H IH]; intros [|y d] Hl; try done; [constructor|].
        cbn. constructor; [|apply IH; cbn in Hl; lia]. case_decide; [done|by left].
      + clear -Ht Hl. revert Ht Hl. generalize (f_cts t1) as d. generalize (f.*2) as cs. generalize (f_cts t2) as c.
        intros c cs d H. revert d. induction H as [|x a c cs Hx H IH]; intros [|y d] Hl; try done; [constructor|].
        cbn. constructor; [|apply IH; cbn in Hl; lia]. case_decide as E; [by rewrite E|by left].
    - intros ls. cbn. destruct same; [|done]. case_decide as E; [|done]. intros H.
      destruct Hi as [[[_ Hr] _]|[[_ Hr] _]]; apply Hr; congruence.
    - cbn. destruct same; [|by intros [? ?]]. case_decide as E; [|by intros [? ?]].
      destruct Hi as [[_ HN]|[_ HN]]; [exact HN|]. rewrite E. exact HN.
  Qed.

  Theorem infer_sound e t f : complete aty e → infer aty e = Ok t → run e = Ok f → inv t f.
  Proof.
    revert t f. induction e as [const cs ls|cols ls|c|u e IH|b l IHl r IHr|c same e1 IH1 e2 IH2]; intros t f Hc H Hr.
    - destruct Hc as [-> Hl]. cbn in H, Hr. injection H as <-.
      apply make_frame_Ok in Hr as (H1 & H2 & HN).
      2:{ unfold or_default. destruct ls; [by rewrite fmap_length, seq_length|]. by destruct Hl. }
      split; [split|]; cbn.
      + unfold right_types. cbn. rewrite H2. apply Forall2_fmap_l. apply Forall_Forall2_diag. apply Forall_forall. intros a _. by right.
      + intros l. cbn. destruct ls as [|l0 ls]; [done|]. intros [= <-]. by rewrite H1.
      + done.
    - destruct Hc as [Hm Hl]. cbn in H. inv_ok H. injection H as <-. apply omap_const_inv in E as ->.
      cbn in Hr. destruct cols as [|c0 cols]; [done|]. destruct ls as [|s0 ls]; [done|].
      change (or_default (s_val <$> s0 :: ls) (length (c0 :: cols))) with (s_val <$> s0 :: ls) in Hr.
      apply make_frame_Ok in Hr as (H1 & H2 & HN); [|by rewrite !fmap_length].
      split; [split|].
      + unfold right_types. cbn [f_cts]. rewrite H2. apply Forall2_fmap. apply Forall_Forall2_diag. exact Hm.
      + intros l [= <-]. by rewrite H1.
      + done.
    - cbn in Hc, H, Hr. injection H as <-. apply make_frame_Ok in Hr as (H1 & H2 & HN); [|done]. split; [split|]; cbn.
      + unfold right_types. cbn. rewrite H2. constructor; [done|constructor].
      + intros ls [=].
      + intros [? [=]].
    - destruct Hc as [He Hu]. cbn in H, Hr. inv_ok H. inv_ok Hr. eapply un_sound; eauto.
    - destruct Hc as (Hl & Hrr & Hb). cbn in H, Hr. inv_ok H. inv_ok H. inv_ok Hr. inv_ok Hr.
      eapply (bin_sound b l r x x0); eauto.
    - destruct Hc as (H1 & H2 & Hlen). cbn in H, Hr. inv_ok H. inv_ok H. injection H as <-.
      apply common_sound; [by apply Hlen|]. destruct c; [left|right]; eauto.
  Qed.
End proofs.
