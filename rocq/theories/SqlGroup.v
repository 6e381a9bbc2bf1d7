(** Queries with GROUP BY. *)
From stdpp Require Import base numbers sorting list list_numbers strings.
From Coq Require Import Ascii.
From Verif Require Import CppBase OrderSpec SqlSyntax SqlModel SqlSpec SqlSort SqlNames SqlRows SqlVisit SqlTables SqlQuery SqlSelect.
Local Open Scope string_scope.
Local Open Scope list_scope.

Lemma omap_all {A B} (f : A -> option B) l : (forall x, x ∈ l -> is_Some (f x)) -> Forall2 (fun x y => f x = Some y) l (omap f l).
Proof.
  induction l as [|x l IH]; intros H; [constructor|]. destruct (H x ltac:(left)) as [y Hy]. cbn. rewrite Hy. constructor; [done|]. apply IH. intros z Hz. apply H. by right.
Qed.
Lemma imap_app_one {A B} (f : nat -> A -> B) l x : imap f (l ++ [x]) = imap f l ++ [f (length l) x].
Proof. rewrite imap_app. cbn. by rewrite Nat.add_0_r. Qed.

Section group.
  Context {V : Type} (O : ops V) (db : list (string * frame V)).
  Notation tuple := (@tuple V).
  Definition aggcall : Type := string * expr V.
  (** the calls of aggregation functions in an expression, in the order of the traversal *)
  Fixpoint aggs (e : expr V) : list aggcall :=
    match e with
    | ELit _ _ | EStar | EIdent _ _ => []
    | EParen e => aggs e
    | EAgg f a => [(f, a)]
    | EBin _ a b => aggs a ++ aggs b
    | EBetween o l h => aggs o ++ aggs l ++ aggs h
    end.
  Definition agg_names (L : list aggcall) : list string := imap (fun k x => group_name k (text (snd x))) L.
  Definition fns (L : list aggcall) : list aggfn := omap (fun x => fn_of (fst x)) L.
  Definition ext (L : list aggcall) (t : tuple) : list V := omap (fun x => ev O t (snd x)) L.
  Definition good_call (sc : list (string * list string)) (x : aggcall) : Prop := is_Some (fn_of (fst x)) /\ row_expr sc (snd x).
  Definition itext (i : ident) : string := ident_text (fst i) (snd i).

  Lemma row_ev sc t e : good_scope sc -> shape sc t -> row_expr sc e -> is_Some (ev O t e).
  Proof.
    intros Hg Hs. induction e as [x v| |f c|e IH|f e IH|op a IHa b IHb|o IHo l IHl h IHh]; cbn [row_expr ev]; try done; try (intros; eauto; done).
    - intros Hi. destruct (flat_cell sc t _ Hg Hs Hi) as (v & -> & _). eauto.
    - intros (_ & Ha & Hb). destruct (IHa Ha) as [x ->], (IHb Hb) as [y ->]. eauto.
    - intros (Ho & Hl & Hh). destruct (IHo Ho) as [x ->], (IHl Hl) as [y ->], (IHh Hh) as [z ->]. eauto.
  Qed.
  Lemma ext_all sc L t : good_scope sc -> shape sc t -> Forall (good_call sc) L -> Forall2 (fun x v => ev O t (snd x) = Some v) L (ext L t).
  Proof. intros Hg Hs HL. apply (omap_all (fun x => ev O t (snd x))). intros x Hx. rewrite Forall_forall in HL. destruct (HL x Hx) as [_ H]. by eapply row_ev. Qed.
  Lemma group_aggs sc ks e : group_expr sc ks e -> Forall (good_call sc) (aggs e).
  Proof.
    induction e as [x v| |f c|e IH|f e IH|op a IHa b IHb|o IHo l IHl h IHh]; cbn [group_expr aggs]; try done; try (intros _; by constructor).
    - intros [H1 H2]. by apply Forall_singleton.
    - intros (_ & Ha & Hb). apply Forall_app. auto.
    - intros (Ho & Hl & Hh). rewrite !Forall_app. auto.
  Qed.
  Lemma agg_names_lookup L k : agg_names L !! k = (fun x => group_name k (text (snd x))) <$> L !! k.
  Proof. unfold agg_names. by rewrite list_lookup_imap. Qed.
  Lemma agg_names_length L : length (agg_names L) = length L. Proof. apply imap_length. Qed.
  Lemma agg_names_nodup L : NoDup (agg_names L).
  Proof.
    apply NoDup_alt. intros i j x Hi Hj. rewrite agg_names_lookup in Hi, Hj. destruct (L !! i); [|done]. destruct (L !! j); [|done]. cbn [fmap option_fmap option_map] in Hi, Hj. rewrite <- Hi in Hj. apply (inj Some) in Hj. by apply group_name_inj in Hj.
  Qed.
  Definition plain (sc : list (string * list string)) : Prop := forall f, f ∈ map fst sc -> ~ reserved f.
  Lemma agg_names_fresh sc L l : good_scope sc -> plain sc -> l ∈ agg_names L -> l ∉ sl sc.
  Proof.
    intros Hg Hp (k & Hk)%elem_of_list_lookup Hl. rewrite agg_names_lookup in Hk. destruct (L !! k); [|done]. cbn [fmap option_fmap option_map] in Hk. apply (inj Some) in Hk as <-. apply sl_elem in Hl as (p0 & c & E & Hid & Hin); [|done].
    by apply group_name_dot in E; [|done|apply Hp].
  Qed.
  Lemma all_names_nodup sc L : good_scope sc -> plain sc -> NoDup (sl sc) -> NoDup (sl sc ++ agg_names L).
  Proof. intros Hg Hp Hn. apply NoDup_app. split; [done|]. split; [|apply agg_names_nodup]. intros l H1 H2. by eapply agg_names_fresh. Qed.

  (** * The first pass: the arguments of the aggregation functions become columns *)
  Section pass.
  Context (sc : list (string * list string)) (ks : list ident).
  Context (Hgs : good_scope sc) (Hpl : plain sc) (Hnd : NoDup (sl sc)) (Hks : Forall (in_scope sc) ks) (HkN : NoDup ks).
  Record scan_in (ts : list tuple) (L : list aggcall) (s : @st V) : Prop := mkScan {
    sn_rows : rows_in db sc (agg_names L) (ext L) ts s;
    sn_grouped : forall k, k ∈ ks -> itext k ∈ grouped s;
    sn_gname : gname s = map itext ks;
    sn_cg : cg s = false; sn_grp : grp s = true; sn_agg : agg s = false; sn_gc : gc s = length L; sn_gcc : gcc s = 0; sn_cname : cname s = agg_names L; sn_fname : fname s = fns L }.
  Lemma visit_ident_key (s : @st V) f c : grp s = true -> agg s = false -> (ident_text f c) ∈ grouped s -> visit_ident db f c s = visit_ident db f c s /\
    (grp s && negb (agg s) && negb (bool_decide (ident_text f c ∈ grouped s)) && negb (ends_star (ident_text f c)) && negb (bool_decide ("*" ∈ grouped s))) = false.
  Proof. intros H1 H2 H3. split; [done|]. rewrite (bool_decide_eq_true_2 _ H3). by rewrite andb_false_r. Qed.
  Lemma zip_ext (ts : list tuple) L f a c : Forall2 (fun t x => ev O t a = Some x) ts c ->
    zip_with app (ext_rows (ext L) ts) (map (fun v => [v]) c) = ext_rows (ext (L ++ [(f, a)])) ts.
  Proof.
    induction 1 as [|t x ts c Hx _ IH]; [done|]. cbn [ext_rows map zip_with]. unfold ext_rows in IH. rewrite IH. f_equal. rewrite <- app_assoc. f_equal. unfold ext. rewrite omap_app. f_equal. cbn. by rewrite Hx.
  Qed.
  Lemma visit_scan ts e : group_expr sc ks e -> forall L s, scan_in ts L s -> exists s', visit O db e s = Ok (None, s') /\ scan_in ts (L ++ aggs e) s'.
  Proof.
    induction e as [x v| |f c|e IH|f e IH|op a IHa b IHb|o IHo l IHl h IHh]; cbn [group_expr aggs]; intros He L s HS; try done.
    - cbn [visit]. rewrite (sn_cg _ _ _ HS), app_nil_r. eauto.
    - cbn [visit]. unfold visit_ident. rewrite (proj2 (visit_ident_key s f c (sn_grp _ _ _ HS) (sn_agg _ _ _ HS) (sn_grouped _ _ _ HS _ He))). rewrite (sn_cg _ _ _ HS), app_nil_r. cbn [negb]. eauto.
    - cbn [visit]. eauto.
    - destruct He as ([fn Hfn] & He). cbn [visit]. destruct HS as [HR Hgr Hgn Hcg Hg Ha Hgc Hgcc Hcn Hfnm]. rewrite (row_text sc) by done. cbn [grp cg agg set_ground]. rewrite Hg, Hcg, Ha. cbn [negb andb]. rewrite Hfn. cbn [need obind].
      set (s1 := set_flags _ true _ true). assert (rows_in db sc (agg_names L) (ext L) ts s1) as HR1 by (by eapply rows_in_same; [..|exact HR]).
      destruct (visit_row O db _ _ _ _ s1 e HR1 eq_refl (or_intror eq_refl) He) as (v & -> & Hv & _). cbn [obind need fst snd].
      destruct (to_col_ok _ ts v (set_flags s1 false (grp s1) false) (rows_length _ _ _ _ _ _ HR1) Hv) as (c & -> & Hc). cbn [obind].
      assert (cur (set_flags s1 false (grp s1) false) = mkFrame (sl sc ++ agg_names L) (ext_rows (ext L) ts)) as Ecur by apply HR.
      rewrite Ecur. unfold col_bind. cbn [f_rows f_labels col_to_frame]. rewrite decide_True by (unfold ext_rows; rewrite !map_length; by eapply Forall2_length).
      assert (agg_names L ++ [group_name (gc s) (text e)] = agg_names (L ++ [(f, e)])) as En by (unfold agg_names; rewrite imap_app_one, Hgc; done).
      rewrite <- app_assoc, En, (zip_ext ts L f e c Hc). unfold make_frame. rewrite decide_True by (by apply all_names_nodup). cbn [obind]. eexists. split; [done|].
      assert (fns (L ++ [(f, e)]) = fns L ++ [fn]) as Ef by (unfold fns; rewrite omap_app; cbn; by rewrite Hfn).
      constructor; try done; cbn.
      + destruct HR as [H1 H2 H3 _]. constructor; done.
      + rewrite Hgc, app_length. done.
      + by rewrite Hcn, En.
      + by rewrite Hfnm, Ef.
    - destruct He as (_ & Ha & Hb). cbn [visit]. destruct (IHa Ha L s HS) as (s1 & -> & HS1). cbn [obind snd fst]. destruct (IHb Hb _ s1 HS1) as (s2 & -> & HS2). cbn [obind snd fst]. rewrite (sn_cg _ _ _ HS2). exists s2. split; [done|]. by rewrite app_assoc.
    - destruct He as (Ho & Hl & Hh). cbn [visit]. destruct (IHo Ho L s HS) as (s1 & -> & HS1). cbn [obind snd fst]. destruct (IHl Hl _ s1 HS1) as (s2 & -> & HS2). cbn [obind snd fst].
      destruct (IHh Hh _ s2 HS2) as (s3 & -> & HS3). cbn [obind snd fst]. rewrite (sn_cg _ _ _ HS3). exists s3. split; [done|]. by rewrite !app_assoc.
  Qed.
  Lemma scan_items_ok ts is : Forall (fun i : item V => group_expr sc ks (fst i)) is -> forall L s, scan_in ts L s -> exists s', scan_items O db is s = Ok s' /\ scan_in ts (L ++ concat (map (fun i => aggs (fst i)) is)) s'.
  Proof.
    induction 1 as [|i is Hi _ IH]; intros L s HS; [exists s; cbn; rewrite app_nil_r; done|]. cbn [scan_items]. unfold visit_item. destruct (visit_scan ts _ Hi L s HS) as (s1 & -> & HS1). cbn [obind snd fst]. rewrite (sn_cg _ _ _ HS1). cbn [negb obind snd].
    destruct (IH _ s1 HS1) as (s2 & -> & HS2). exists s2. split; [done|]. cbn [map concat]. by rewrite app_assoc.
  Qed.

  (** * The rows of groups *)
  Definition agg_labels (L : list aggcall) : list string := zip_with agg_label (fns L) (agg_names L).
  Definition glabels (L : list aggcall) : list string := map itext ks ++ agg_labels L.
  Definition call_of (x : aggcall) : expr V := EAgg (fst x) (snd x).
  Definition grow (L : list aggcall) (g : list tuple) : list V := omap (head_at g) ks ++ omap (fun x => ev_group O g (call_of x)) L.
  Definition good_group (g : list tuple) : Prop := g <> [] /\ forall t, t ∈ g -> shape sc t.
  Lemma itext_inj i j : in_scope sc i -> in_scope sc j -> itext i = itext j -> i = j.
  Proof.
    intros Hi Hj E. destruct (scoped sc i Hgs Hi) as (f & Ef & [_ Hf] & _), (scoped sc j Hgs Hj) as (h & Eh & [_ Hh] & _). destruct i as [fi c], j as [fj d]. cbn [fst snd] in *. subst. unfold itext in E. cbn in E. by apply dot_inj in E as [-> ->].
  Qed.
  Lemma keys_nodup : NoDup (map itext ks).
  Proof.
    clear Hpl Hnd. induction HkN as [|k l Hk Hn IH]; [constructor|]. apply Forall_cons in Hks as [H1 H2]. cbn [map]. constructor; [|by apply IH]. intros (k' & E & Hk')%elem_of_list_fmap. apply itext_inj in E; [by subst|done|]. rewrite Forall_forall in H2. auto.
  Qed.
  Lemma fns_all L : Forall (good_call sc) L -> Forall2 (fun x fn => fn_of (fst x) = Some fn) L (fns L).
  Proof. intros HL. apply (omap_all (fun x => fn_of (fst x))). intros x Hx. rewrite Forall_forall in HL. by destruct (HL x Hx). Qed.
  Lemma agg_label_lookup L k x fn : Forall (good_call sc) L -> L !! k = Some x -> fn_of (fst x) = Some fn -> agg_labels L !! k = Some (agg_label fn (group_name k (text (snd x)))).
  Proof.
    intros HL Hk Hf. unfold agg_labels. rewrite lookup_zip_with. destruct (Forall2_lookup_l _ _ _ _ _ (fns_all L HL) Hk) as (fn' & -> & E). rewrite agg_names_lookup, Hk. cbn. congruence.
  Qed.
  Lemma agg_labels_length L : Forall (good_call sc) L -> length (agg_labels L) = length L.
  Proof. intros HL. unfold agg_labels. rewrite zip_with_length, agg_names_length, <- (Forall2_length _ _ _ (fns_all L HL)). apply Nat.min_id. Qed.
  Lemma agg_labels_elem L l : Forall (good_call sc) L -> l ∈ agg_labels L -> exists k x fn, L !! k = Some x /\ l = agg_label fn (group_name k (text (snd x))).
  Proof.
    intros HL (k & Hk)%elem_of_list_lookup. pose proof (lookup_lt_Some _ _ _ Hk) as Hlt. rewrite agg_labels_length in Hlt by done. destruct (lookup_lt_is_Some_2 _ _ Hlt) as [x Hx]. rewrite Forall_forall in HL.
    destruct (HL x (elem_of_list_lookup_2 _ _ _ Hx)) as [[fn Hf] _]. exists k, x, fn. split; [done|]. rewrite (agg_label_lookup L k x fn) in Hk; [congruence|by apply Forall_forall|done..].
  Qed.
  Lemma glabels_nodup L : Forall (good_call sc) L -> NoDup (glabels L).
  Proof.
    intros HL. apply NoDup_app. split; [apply keys_nodup|]. split.
    - intros l (k & -> & Hk)%elem_of_list_fmap (j & x & fn & _ & E)%agg_labels_elem; [|done]. rewrite Forall_forall in Hks. destruct (scoped sc k Hgs (Hks k Hk)) as (f & Ef & [_ Hf] & _). unfold itext in E. rewrite Ef in E. symmetry in E. cbn in E.
      by apply agg_label_dot in E.
    - apply NoDup_alt. intros i j l Hi Hj. pose proof (lookup_lt_Some _ _ _ Hi) as Li. pose proof (lookup_lt_Some _ _ _ Hj) as Lj. rewrite agg_labels_length in Li, Lj by done.
      destruct (lookup_lt_is_Some_2 _ _ Li) as [x Hx], (lookup_lt_is_Some_2 _ _ Lj) as [y Hy]. pose proof HL as HL'. rewrite Forall_forall in HL'.
      destruct (HL' x (elem_of_list_lookup_2 _ _ _ Hx)) as [[fn Hf] _], (HL' y (elem_of_list_lookup_2 _ _ _ Hy)) as [[fn' Hf'] _].
      rewrite (agg_label_lookup L i x fn) in Hi by done. rewrite (agg_label_lookup L j y fn') in Hj by done. rewrite <- Hi in Hj. apply (inj Some) in Hj. by apply agg_label_inj in Hj as [-> _].
  Qed.
  Lemma head_some g k : good_group g -> k ∈ ks -> is_Some (head_at g k).
  Proof. intros [Hne Hs] Hk. destruct g as [|t g]; [done|]. cbn. rewrite Forall_forall in Hks. destruct (flat_cell sc t k Hgs (Hs t ltac:(left)) (Hks k Hk)) as (v & -> & _). eauto. Qed.
  Lemma call_some g x : good_group g -> good_call sc x -> exists fn c, fn_of (fst x) = Some fn /\ mapM (fun t => ev O t (snd x)) g = Some c /\ ev_group O g (call_of x) = Some (aggf O fn c).
  Proof.
    intros [_ Hs] [[fn Hf] Hr]. destruct (forall2_exists (fun t v => ev O t (snd x) = Some v) g) as (c & Hc). { intros t Ht. apply (row_ev sc); auto. }
    exists fn, c. apply forall2_mapM in Hc. split; [done|]. split; [done|]. cbn [call_of ev_group]. by rewrite Hf, Hc.
  Qed.
  Lemma grow_keys g : good_group g -> Forall2 (fun k v => head_at g k = Some v) ks (omap (head_at g) ks).
  Proof. intros Hg. apply omap_all. intros k Hk. by apply head_some. Qed.
  Lemma grow_calls L g : Forall (good_call sc) L -> good_group g -> Forall2 (fun x v => ev_group O g (call_of x) = Some v) L (omap (fun x => ev_group O g (call_of x)) L).
  Proof. intros HL Hg. apply omap_all. intros x Hx. rewrite Forall_forall in HL. destruct (call_some g x Hg (HL x Hx)) as (fn & c & _ & _ & ->). eauto. Qed.
  Lemma grow_key_cell L g k : good_group g -> k ∈ ks -> exists v, head_at g k = Some v /\ cell (glabels L) (grow L g) (itext k) = Some v.
  Proof.
    intros Hg (i & Hi)%elem_of_list_lookup. destruct (Forall2_lookup_l _ _ _ _ _ (grow_keys g Hg) Hi) as (v & Hv & E). exists v. split; [done|]. apply cell_app_l. apply (cell_nodup _ _ i); [apply keys_nodup|by rewrite list_lookup_fmap, Hi|done].
  Qed.
  Lemma grow_call_cell L g k x fn : Forall (good_call sc) L -> good_group g -> L !! k = Some x -> fn_of (fst x) = Some fn ->
    exists v, ev_group O g (call_of x) = Some v /\ cell (glabels L) (grow L g) (agg_label fn (group_name k (text (snd x)))) = Some v.
  Proof.
    intros HL Hg Hk Hf. destruct (Forall2_lookup_l _ _ _ _ _ (grow_calls L g HL Hg) Hk) as (v & Hv & E). exists v. split; [done|]. pose proof (agg_label_lookup L k x fn HL Hk Hf) as Hl. pose proof (glabels_nodup L HL) as Hn.
    unfold glabels, grow. rewrite cell_app_r; [|by rewrite map_length, <- (Forall2_length _ _ _ (grow_keys g Hg))|].
    - apply (cell_nodup _ _ k); [by apply nodup_app_r in Hn|done..].
    - apply NoDup_app in Hn as (_ & Hd & _). intros Hin. apply (Hd _ Hin). by eapply elem_of_list_lookup_2.
  Qed.

  (** * The kernel *)
  Definition kb : list (ident * bool) := map (fun k => (k, true)) ks.
  Lemma group_frame_ok ts L : ks <> [] -> Forall (good_call sc) L -> Forall (shape sc) ts ->
    group_frame O (mkFrame (sl sc ++ agg_names L) (ext_rows (ext L) ts)) (map itext ks) (agg_names L) (fns L) =
      Ok (mkFrame (glabels L) (map (grow L) (runs (key_before O kb) (ssort (key_before O kb) ts)))).
  Proof.
    intros Hne HL Hs. unfold group_frame. cbn zeta. cbn [f_labels f_rows].
    assert (concat (map (star_labels (mkFrame (sl sc ++ agg_names L) (ext_rows (ext L) ts)) (agg_names L)) (map itext ks)) = []) as ->.
    { clear -Hks Hgs. pose proof Hks as Hk0. clear Hks. induction Hk0 as [|k l Hk _ IH]; [done|]. cbn [map concat]. rewrite IH, app_nil_r. unfold star_labels. destruct (string_dec (itext k) "*") as [E|_]; [by apply (ident_not_star sc k) in E|].
      destruct (string_dec _ _) as [E|_]; [by apply (ident_behind sc k) in E|done]. }
    set (ls := sl sc ++ agg_names L). set (row := fun t => flat t ++ ext L t).
    assert (exists ki, Forall2 (fun k i => index_of (itext k) ls = Some i) ks ki) as (ki & Hki).
    { apply forall2_exists. intros k Hk. apply index_some. apply elem_of_app. left. apply sl_in. rewrite Forall_forall in Hks. auto. }
    assert (exists ai, Forall2 (fun l i => index_of l ls = Some i) (agg_names L) ai) as (ai & Hai).
    { apply forall2_exists. intros l Hl. apply index_some. apply elem_of_app. by right. }
    rewrite (omapM_ok _ _ ki) by (apply Forall2_fmap_l; eapply Forall2_impl; [exact Hki|]; intros k i E; unfold col_idx; cbn [f_labels]; fold ls; unfold itext in E |- *; cbn in E |- *; by rewrite E). cbn [obind].
    rewrite (omapM_ok _ _ ai) by (eapply Forall2_impl; [exact Hai|]; intros k i E; unfold col_idx; cbn [f_labels]; fold ls; unfold itext in E |- *; cbn in E |- *; by rewrite E). cbn [obind].
    assert (forall X (a b : X), match map itext ks with [] => a | _ :: _ => b end = b) as -> by (intros; by destruct ks).
    (* the cells at these positions *)
    assert (forall t, shape sc t -> Forall2 (fun k i => row t !! i = value_at t k) ks ki) as Rk.
    { intros t Ht. apply forall2_elem_r in Hki. eapply Forall2_impl; [exact Hki|]. intros k i (Ei & Hk & _). rewrite Forall_forall in Hks. destruct (flat_cell sc t k Hgs Ht (Hks k Hk)) as (v & -> & Hc).
      apply (cell_app_l _ (agg_names L) _ (ext L t)) in Hc. unfold cell in Hc. fold ls in Hc. unfold itext in Ei. by rewrite Ei in Hc. }
    assert (forall t, shape sc t -> Forall2 (fun x i => row t !! i = ev O t (snd x)) L ai) as Ra.
    { intros t Ht. apply Forall2_same_length_lookup. split; [by rewrite <- (Forall2_length _ _ _ Hai), agg_names_length|]. intros j x i Hx Hi. destruct (Forall2_lookup_r _ _ _ _ _ Hai Hi) as (l & Hl & Ei).
      destruct (Forall2_lookup_l _ _ _ _ _ (ext_all sc L t Hgs Ht HL) Hx) as (v & Hv & ->). assert (cell ls (row t) l = Some v) as Hc; [|unfold cell in Hc; by rewrite Ei in Hc].
      unfold ls, row. rewrite cell_app_r; [|by rewrite (flat_length sc)|eapply agg_names_fresh; [done..|by eapply elem_of_list_lookup_2]]. apply (cell_nodup _ _ j); [apply agg_names_nodup|done..]. }
    unfold ext_rows. fold row. rewrite Forall_forall in Hs.
    rewrite (runs_map _ (key_before O kb)).
    2: { intros t u Ht Hu. apply row_before_key. unfold kb. apply Forall2_fmap. cbn. apply Forall2_flip.
         pose proof (Rk t (Hs t Ht)) as R1. pose proof (Rk u (Hs u Hu)) as R2. apply Forall2_same_length_lookup. split; [by apply Forall2_length in Hki|]. intros j k i Hk Hi.
         pose proof (Forall2_lookup_lr _ _ _ _ _ _ R1 Hk Hi). pose proof (Forall2_lookup_lr _ _ _ _ _ _ R2 Hk Hi). done. }
    assert (Forall good_group (runs (key_before O kb) (ssort (key_before O kb) ts))) as Hgg.
    { pose proof (runs_ne (key_before O kb) (ssort (key_before O kb) ts)) as Hn. rewrite Forall_forall in Hn. apply Forall_forall. intros g Hg. split; [by apply Hn|]. intros t Ht. apply Hs.
      rewrite <- (ssort_perm (key_before O kb) ts), <- (runs_concat (key_before O kb) (ssort _ ts)). apply elem_concat_iff. eauto. }
    set (gs := runs (key_before O kb) _) in *. clearbody gs.
    rewrite (omapM_ok _ _ (map (grow L) gs)).
    - cbn [obind]. unfold make_frame. rewrite decide_True; [done|]. by apply glabels_nodup.
    - apply Forall2_fmap_l, Forall2_fmap_r, Forall_Forall2_diag. eapply Forall_impl; [exact Hgg|]. intros g Hg. unfold compose, group_row.
      pose proof Hg as [Hgne Hgsh]. destruct g as [|t g']; [done|]. cbn [map]. unfold cells at 1.
      assert (mapM (fun i => row t !! i) ki = Some (omap (head_at (t :: g')) ks)) as ->.
      { apply forall2_mapM. pose proof (grow_keys _ Hg) as Hk. pose proof (Rk t (Hgsh t ltac:(left))) as R. clear -Hk R. revert Hk. generalize (omap (head_at (t :: g')) ks).
        induction R as [|k i l li E _ IH]; intros vs Hv; inversion Hv as [|? v ? vs' Ev Hv']; subst; constructor; [by rewrite E|auto]. }
      cbn [obind]. change (row t :: map row g') with (map row (t :: g')). set (g := t :: g') in *. clearbody g. clear t g'.
      assert (exists cols, Forall2 (fun x c => mapM (fun t => ev O t (snd x)) g = Some c) L cols) as (cols & Hcols).
      { apply forall2_exists. intros x Hx. rewrite Forall_forall in HL. destruct (call_some g x Hg (HL x Hx)) as (fn & c & _ & Hc & _). eauto. }
      rewrite (omapM_ok _ _ cols).
      + cbn [obind]. unfold grow. do 2 f_equal. pose proof (fns_all L HL) as HF. clear -HF Hcols. revert HF. generalize (fns L). induction Hcols as [|x c L cols Hc _ IH]; intros F HF; inversion HF as [|? fn ? F' Ef HF']; subst; [done|].
        cbn [zip_with]. rewrite (IH F' HF'). cbn. by rewrite Ef, Hc.
      + apply Forall2_same_length_lookup. split; [rewrite <- (Forall2_length _ _ _ Hcols), <- (Forall2_length _ _ _ Hai); apply agg_names_length|]. intros j i c Hi Hc.
        destruct (Forall2_lookup_r _ _ _ _ _ Hcols Hc) as (x & Hx & Ec). assert (mapM (fun r : list V => r !! i) (map row g) = Some c) as ->; [|done]. apply forall2_mapM. apply Forall2_fmap_l. apply forall2_mapM in Ec. apply forall2_elem_r in Ec.
        eapply Forall2_impl; [exact Ec|]. intros t v (Ev & Ht & _). pose proof (Forall2_lookup_lr _ _ _ _ _ _ (Ra t (Hgsh t Ht)) Hx Hi) as E. cbn in E. unfold compose. by rewrite E.
  Qed.

  (** * The second pass *)
  Record eval_in (L : list aggcall) (k : nat) (gs : list (list tuple)) (s : @st V) : Prop := mkEval {
    en_names : names_ok db sc s;
    en_grouped : forall k, k ∈ ks -> itext k ∈ grouped s;
    en_groups : Forall good_group gs;
    en_cg : cg s = true; en_grp : grp s = true; en_agg : agg s = false; en_gcc : gcc s = k;
    en_cur : cur s = mkFrame (glabels L) (map (grow L) gs) }.
  Lemma visit_eval L gs e : Forall (good_call sc) L -> group_expr sc ks e -> forall pre post s, L = pre ++ aggs e ++ post -> eval_in L (length pre) gs s ->
    exists v s', visit O db e s = Ok (Some v, s') /\ eval_in L (length (pre ++ aggs e)) gs s' /\ denotes (fun g => ev_group O g e) gs v.
  Proof.
    intros HL. induction e as [x v| |f c|e IH|f e IH|op a IHa b IHb|o IHo l IHl h IHh]; cbn [group_expr aggs]; intros He pre post s EL HE; try done.
    - cbn [visit]. rewrite (en_cg _ _ _ _ HE), app_nil_r. eexists _, s. split; [done|]. split; [done|]. by intros ? _.
    - cbn [visit]. unfold visit_ident. rewrite (proj2 (visit_ident_key s f c (en_grp _ _ _ _ HE) (en_agg _ _ _ _ HE) (en_grouped _ _ _ _ HE _ He))). rewrite (en_cg _ _ _ _ HE), app_nil_r. cbn [negb].
      assert (in_scope sc (f, c)) as Hi by (rewrite Forall_forall in Hks; by apply Hks).
      destruct (string_dec _ _) as [E|_]; [by apply (ident_not_star sc (f, c)) in E|]. pose proof (ident_length sc (f, c) Hgs Hi) as E1. pose proof (ident_no_star sc (f, c) Hgs Hi) as E2. cbn [fst snd] in E1, E2. rewrite E1, E2.
      rewrite (ident_name_ok db sc (f, c)) by (try done; by apply HE). cbn [obind fst snd].
      destruct (forall2_exists (fun g x => head_at g (f, c) = Some x) gs) as (col & Hcol). { intros g Hg. pose proof (en_groups _ _ _ _ HE) as HG. rewrite Forall_forall in HG. by apply head_some; [apply HG|]. }
      rewrite (extract_matrix_ok s (ident_text f c) col).
      + cbn [obind]. eexists _, s. split; [done|]. split; [done|]. cbn [denotes]. eapply Forall2_impl; [exact Hcol|]. intros g x E. cbn [ev_group]. by destruct g.
      + by apply (ident_behind sc (f, c)).
      + rewrite (en_cur _ _ _ _ HE). cbn [f_labels]. apply elem_of_app. left. apply elem_of_list_fmap. by exists (f, c).
      + rewrite (en_cur _ _ _ _ HE). cbn [f_labels f_rows]. apply Forall2_fmap_l. apply forall2_elem_r in Hcol. eapply Forall2_impl; [exact Hcol|]. intros g x (E & Hg & _). pose proof (en_groups _ _ _ _ HE) as HG. rewrite Forall_forall in HG.
        destruct (grow_key_cell L g (f, c) (HG g Hg) He) as (v & Hv & Hc). rewrite E in Hv. injection Hv as <-. exact Hc.
    - cbn [visit]. eauto.
    - destruct He as ([fn Hfn] & He). cbn [visit]. rewrite (row_text sc) by done. cbn [grp cg agg gcc set_ground]. rewrite (en_grp _ _ _ _ HE), (en_cg _ _ _ _ HE), (en_agg _ _ _ _ HE), (en_gcc _ _ _ _ HE). cbn [negb andb]. rewrite Hfn. cbn [need obind].
      assert (L !! length pre = Some (f, e)) as Hk by (rewrite EL; by apply list_lookup_middle).
      destruct (forall2_exists (fun g x => ev_group O g (EAgg f e) = Some x) gs) as (col & Hcol).
      { intros g Hg. pose proof (en_groups _ _ _ _ HE) as HG. rewrite Forall_forall in HG. destruct (grow_call_cell L g _ (f, e) fn HL (HG g Hg) Hk Hfn) as (v & Hv & _). exists v. exact Hv. }
      rewrite (extract_matrix_ok _ _ col).
      + cbn [obind]. eexists _, _. split; [done|]. split; [|done]. destruct HE as [H1 H2 H3 H4 H5 H6 H7 H8]. constructor; try done. cbn. rewrite app_length. cbn. done.
      + apply agg_label_behind.
      + cbn [cur set_gcc set_ground]. rewrite (en_cur _ _ _ _ HE). cbn [f_labels]. apply elem_of_app. right. eapply elem_of_list_lookup_2. by apply (agg_label_lookup L (length pre) (f, e) fn).
      + cbn [cur set_gcc set_ground]. rewrite (en_cur _ _ _ _ HE). cbn [f_labels f_rows]. apply Forall2_fmap_l. apply forall2_elem_r in Hcol. eapply Forall2_impl; [exact Hcol|]. intros g x (E & Hg & _). pose proof (en_groups _ _ _ _ HE) as HG. rewrite Forall_forall in HG.
        destruct (grow_call_cell L g _ (f, e) fn HL (HG g Hg) Hk Hfn) as (v & Hv & Hc). unfold call_of in Hv. cbn [fst snd] in Hv. rewrite E in Hv. injection Hv as <-. exact Hc.
    - destruct He as (Hop & Ha & Hb). cbn [visit]. destruct (IHa Ha pre (aggs b ++ post) s) as (x & s1 & -> & HE1 & Hx); [by rewrite EL, <- app_assoc|done|]. cbn [obind snd fst].
      destruct (IHb Hb (pre ++ aggs a) post s1) as (y & s2 & -> & HE2 & Hy); [by rewrite EL, <- !app_assoc|done|]. cbn [obind snd fst]. rewrite (en_cg _ _ _ _ HE2). cbn [need obind].
      destruct (apply_op_ok O op (fun g => ev_group O g a) (fun g => ev_group O g b) gs x y s2) as (v & -> & Hv & _); [rewrite (en_cur _ _ _ _ HE2); apply map_length|done..|]. cbn [obind]. exists v, s2. split; [done|]. split; [by rewrite app_assoc|exact Hv].
    - destruct He as (Ho & Hl & Hh). cbn [visit]. destruct (IHo Ho pre (aggs l ++ aggs h ++ post) s) as (x & s1 & -> & HE1 & Hx); [by rewrite EL, <- !app_assoc|done|]. cbn [obind snd fst].
      destruct (IHl Hl (pre ++ aggs o) (aggs h ++ post) s1) as (y & s2 & -> & HE2 & Hy); [by rewrite EL, <- !app_assoc|done|]. cbn [obind snd fst].
      destruct (IHh Hh ((pre ++ aggs o) ++ aggs l) post s2) as (z & s3 & -> & HE3 & Hz); [by rewrite EL, <- !app_assoc|done|]. cbn [obind snd fst]. rewrite (en_cg _ _ _ _ HE3). cbn [need obind].
      destruct (between_op_ok O _ _ _ gs x y z Hx Hy Hz) as (v & -> & Hv & _). cbn [obind]. exists v, s3. split; [done|]. split; [by rewrite !app_assoc|exact Hv].
  Qed.
  End pass.
End group.
