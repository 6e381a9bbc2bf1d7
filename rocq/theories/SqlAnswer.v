(** Whole queries. *)
From stdpp Require Import base numbers sorting list list_numbers strings.
From Coq Require Import Ascii.
From Verif Require Import CppBase OrderSpec SqlSyntax SqlModel SqlSpec SqlSort SqlNames SqlRows SqlVisit SqlTables SqlQuery SqlSelect SqlGroup.
Local Open Scope string_scope.
Local Open Scope list_scope.

Lemma mapM_ones {A B} (f : A -> option B) is : forall rs, mapM (fun i => match f i with Some v => Some [v] | None => None end) is = Some rs -> mapM f is = Some (concat rs).
Proof.
  induction is as [|i is IH]; intros rs H; [by injection H as <-|]. cbn in H |- *. destruct (f i) as [v|]; [|done]. cbn in H. destruct (mapM _ is) as [l|] eqn:E; [|done]. injection H as <-. cbn in IH |- *. by rewrite (IH l eq_refl).
Qed.
Lemma forall2_concat_length {A B} (l : list (list A)) (m : list (list B)) : Forall2 (fun a b => length a = length b) l m -> length (concat l) = length (concat m).
Proof. induction 1; cbn; [done|]. rewrite !app_length. congruence. Qed.

Section answer.
  Context {V : Type} (O : ops V) (db : list (string * frame V)) (W : weak_order (vlt O)).
  Notation tuple := (@tuple V).
  Lemma group_star sc ks (i : item V) q : Forall (in_scope sc) ks -> group_expr sc ks (fst i) -> item_labels db q i = [item_label i].
  Proof.
    intros Hk Hi. unfold item_labels. assert (star_of (fst i) = None) as ->; [|done]. destruct (fst i) as [| |[f|] c| | | |]; try done. cbn in Hi |- *. rewrite Forall_forall in Hk. destruct (Hk _ Hi) as (g & cs & _ & [_ Hc] & _). cbn in Hc. by destruct (decide (c = "*")) as [->|].
  Qed.
  Lemma add_keys_ok sc ks : forall s, good_scope sc -> names_ok db sc s -> Forall (in_scope sc) ks ->
    exists s', add_keys db ks s = Ok s' /\ names_ok db sc s' /\ alias s' = alias s /\ prefix s' = prefix s /\ cur s' = cur s /\ (forall l, l ∈ grouped s' <-> l ∈ grouped s \/ exists k, k ∈ ks /\ l = itext k) /\ gname s' = gname s ++ map itext ks /\
      cg s' = cg s /\ grp s' = grp s /\ agg s' = agg s /\ gc s' = gc s /\ gcc s' = gcc s /\ cname s' = cname s /\ fname s' = fname s.
  Proof.
    induction ks as [|k ks IH]; intros s Hg Hn Hk; cbn [add_keys].
    - exists s. rewrite app_nil_r. split; [done|]. do 4 (split; [done|]). split; [|done]. intros l. split; [auto|]. intros [?|(k & Hin & _)]; [done|by apply elem_of_nil in Hin].
    - apply Forall_cons in Hk as [Hk Hks]. rewrite (ident_name_ok db sc) by done. cbn [obind]. destruct (IH (add_key s (ident_text (fst k) (snd k)) (ident_text (fst k) (snd k))) Hg Hn Hks) as (s' & E & H1 & H2 & H3 & H4 & H5 & H6 & H7).
      exists s'. split; [done|]. do 4 (split; [done|]). split; [|split; [|done]].
      + intros l. rewrite H5. cbn. rewrite elem_of_cons. split.
        * intros [[->|?]|(k' & ? & ->)]; [right; exists k; split; [left|done]|by left|right; exists k'; split; [by right|done]].
        * intros [?|(k' & [->|?]%elem_of_cons & ->)]; [by left; right|by left; left|right; eauto].
      + rewrite H6. cbn. by rewrite <- app_assoc.
  Qed.

  Section group.
  Context (q : query V) (k0 : ident) (ks0 : list ident) (having : option (expr V)).
  Let sc := scope db q.
  Let ks := k0 :: ks0.
  Let hs : list (expr V) := match having with Some e => [e] | None => [] end.
  Let L : list aggcall := concat (map aggs hs) ++ concat (map (fun i => aggs (fst i)) (items q)).
  Context (Hq : q_group q = Some (k0, ks0, having)).
  Context (Hks : Forall (in_scope sc) ks) (HkN : NoDup ks) (Hpl : plain sc) (Hhav : forall e, having = Some e -> group_expr sc ks e) (Hits : Forall (fun i => group_expr sc ks (fst i)) (items q)).
  Context (Hord : Forall (fun o => fst o ∈ ks) (orders q)).
  Let kb := map (fun k : ident => (k, true)) ks.
  Let groups := runs (key_before O kb) (ssort (key_before O kb) (source O db q)).
  Let kept := match having with Some e => filter (fun g => holds O (ev_group O g e) = true) groups | None => groups end.
  Lemma L_good : Forall (good_call sc) L.
  Proof.
    apply Forall_app. split; apply Forall_forall; intros x (l & Hl & Hx)%elem_concat_iff; apply elem_of_list_fmap in Hl as (e & -> & He).
    - subst hs. destruct having as [h|]; [|by apply elem_of_nil in He]. apply elem_of_list_singleton in He as ->. pose proof (group_aggs sc ks h (Hhav h eq_refl)) as H. rewrite Forall_forall in H. auto.
    - rewrite Forall_forall in Hits. pose proof (group_aggs sc ks (fst e) (Hits e He)) as H. rewrite Forall_forall in H. auto.
  Qed.
  Lemma has_kb (t : tuple) : good_scope sc -> shape sc t -> has_keys kb t.
  Proof. intros Hg Hs k (k' & -> & Hk)%elem_of_list_fmap. rewrite Forall_forall in Hks. destruct (flat_cell sc t k' Hg Hs (Hks k' Hk)) as (v & E & _). cbn. rewrite E. eauto. Qed.
  Lemma groups_good (s : @st V) : tables_in O db q s -> Forall (good_group sc) groups.
  Proof.
    intros HT. pose proof (ri_shape _ _ _ _ _ _ (ti_rows _ _ _ _ HT)) as Hs. rewrite Forall_forall in Hs. pose proof (runs_ne (key_before O kb) (ssort (key_before O kb) (source O db q))) as Hn. rewrite Forall_forall in Hn. apply Forall_forall. intros g Hg. split; [by apply Hn|]. intros t Ht. apply Hs.
    rewrite <- (ssort_perm (key_before O kb) (source O db q)), <- (runs_concat (key_before O kb) (ssort _ (source O db q))). apply elem_concat_iff. eauto.
  Qed.
  Lemma kept_sub g : g ∈ kept -> g ∈ groups.
  Proof. unfold kept. destruct having; [|done]. by intros [_ ?]%elem_of_list_filter. Qed.
  Lemma visit_group_ok (s : @st V) : tables_in O db q s -> exists s', visit_group O db q s = Ok s' /\ eval_in O db sc ks L (length (concat (map aggs hs))) kept s'.
  Proof.
    intros HT. pose proof (groups_good s HT) as Hgood. destruct HT as [HR Hnd Hcg Hgrp Hagg Hgd Hgn Hcn Hfn Hgc Hgcc]. pose proof HR as [Hnames Hgs Hsh _]. unfold visit_group. rewrite Hq.
    destruct (add_keys_ok sc ks (set_flags s false true (agg s)) Hgs Hnames Hks) as (s1 & E1 & Hn1 & A1 & A2 & A3 & A4 & A5 & A6 & A7 & A8 & A9 & A10 & A11 & A12).
    unfold ks in E1 at 1. rewrite E1. cbn [obind]. clear E1. cbn in A1, A2, A3, A4, A5, A6, A7, A8, A9, A10, A11, A12.
    assert (scan_in O db sc ks (source O db q) [] s1) as HS1.
    { constructor; try congruence.
      - assert (rows_in db sc [] (fun _ => []) (source O db q) s1) as [H1 H2 H3 H4] by (by eapply rows_in_same; [..|exact HR]). constructor; done.
      - intros k Hk. apply A4. right. eauto.
      - by rewrite A5, Hgn.
      - by rewrite A9, Hgc.
      - by rewrite A11, Hcn.
      - by rewrite A12, Hfn. }
    assert (exists s2, (match having with Some e => let* p := visit O db e s1 in Ok (snd p) | None => Ok s1 end) = Ok s2 /\ scan_in O db sc ks (source O db q) (concat (map aggs hs)) s2) as (s2 & E2 & HS2).
    { subst hs. destruct having as [h|]; [|eauto]. destruct (visit_scan O db sc ks Hgs Hpl Hnd _ h (Hhav h eq_refl) [] s1 HS1) as (s2 & E & HS2). rewrite E. cbn [obind snd map concat]. rewrite app_nil_r. eauto. }
    rewrite E2. cbn [obind]. clear E2. destruct (scan_items_ok O db sc ks Hgs Hpl Hnd _ (items q) Hits _ s2 HS2) as (s3 & E3 & HS3). unfold items in E3 at 1. rewrite E3. cbn [obind]. fold L in HS3. clear E3 HS2 HS1.
    destruct HS3 as [R3 G3 N3 C3 P3 B3 D3 F3 X3 Y3]. cbn [cur gname cname fname set_flags grp agg]. rewrite N3, X3, Y3. pose proof (ri_cur _ _ _ _ _ _ R3) as Ecur. rewrite Ecur.
    rewrite (group_frame_ok O sc ks Hgs Hpl Hks HkN (source O db q) L) by (try done; apply L_good). cbn [obind]. fold kb. fold groups.
    set (s4 := set_cur _ _). assert (eval_in O db sc ks L 0 groups s4) as HE by (constructor; try done; apply R3).
    pose proof L_good as HLg. unfold kept. subst hs. destruct having as [h|] eqn:Eh; [|exists s4; done]. unfold visit_where.
    destruct (visit_eval O db sc ks Hgs Hks HkN L groups h HLg (Hhav h eq_refl) [] (concat (map (fun i => aggs (fst i)) (items q))) s4) as (v & s5 & E5 & HE5 & Hv); [unfold L; cbn [map concat app]; by rewrite app_nil_r|done|].
    rewrite E5. cbn [obind need fst snd]. destruct (to_col_ok _ groups v s5 ltac:(rewrite (en_cur _ _ _ _ _ _ _ _ HE5); apply map_length) Hv) as (c & -> & Hc). cbn [obind].
    rewrite (en_cur _ _ _ _ _ _ _ _ HE5), (filter_row_map O _ (fun g => ev_group O g h)) by done. cbn [obind]. eexists. split; [done|]. destruct HE5 as [H1 H2 H3 H4 H5 H6 H7 H8]. cbn [map concat]. rewrite app_nil_r. constructor; try done.
    apply Forall_forall. intros g [_ Hg]%elem_of_list_filter. rewrite Forall_forall in H3. auto.
  Qed.
  Lemma visit_order_groups (s : @st V) n : good_scope sc -> Forall (good_group sc) kept -> eval_in O db sc ks L n kept s ->
    exists s', visit_order O db q s = Ok s' /\ eval_in O db sc ks L n (ssort (head_before O (orders q)) kept) s'.
  Proof.
    intros Hgs Hgood HE. destruct HE as [H1 H2 H3 H4 H5 H6 H7 H8]. unfold visit_order, orders in *. destruct (q_order q) as [os|] eqn:Eo.
    - assert (Forall (fun o => in_scope sc (fst o)) os) as Ho. { eapply Forall_impl; [exact Hord|]. cbn. intros o Hin. rewrite Forall_forall in Hks. auto. }
      destruct (order_keys_ok db sc s os Hgs H1) as (kk & E & HK).
      { apply Forall_forall. intros o Hin. rewrite Forall_forall in Ho, Hord. split; [auto|]. rewrite H8. cbn [f_labels]. apply elem_of_app. left. apply elem_of_list_fmap. exists (fst o). split; [done|]. auto. }
      rewrite E. cbn [obind]. rewrite H8 in HK |- *. cbn [f_labels] in HK. rewrite (order_frame_map O (grow O ks L) (head_before O os)).
      + cbn [obind]. eexists. split; [done|]. constructor; try done. apply Forall_forall. intros g Hg. rewrite ssort_perm in Hg. rewrite Forall_forall in H3. auto.
      + intros k (i & Hi)%elem_of_list_lookup. destruct (Forall2_lookup_r _ _ _ _ _ HK Hi) as (o & _ & _ & Ei). apply index_lookup in Ei. by eapply lookup_lt_Some.
      + intros g h Hg Hh. pose proof (proj1 (Forall_forall _ _) Hgood) as Hgd. pose proof (Hgd g Hg) as Gg. pose proof (Hgd h Hh) as Gh. pose proof Gg as [Ng _]. pose proof Gh as [Nh _].
        unfold head_before. destruct g as [|t g'] eqn:Eg; [done|]. destruct h as [|u h'] eqn:Eh; [done|]. apply row_before_key. apply Forall2_flip. apply forall2_elem_r in HK. eapply Forall2_impl; [exact HK|]. intros [[f c] b] [k kb'] ((Ek & Ei) & Hin & _). cbn [fst snd] in *. split; [done|].
        rewrite Forall_forall in Hord. pose proof (Hord _ Hin) as Hk. cbn [fst] in Hk.
        destruct (grow_key_cell O sc ks Hgs Hks HkN L _ _ Gg Hk) as (x & Ex & Cx), (grow_key_cell O sc ks Hgs Hks HkN L _ _ Gh Hk) as (y & Ey & Cy). unfold head_at in Ex, Ey. rewrite Ex, Ey. unfold cell, itext in Cx, Cy. cbn [fst snd] in Cx, Cy. rewrite Ei in Cx, Cy. done.
    - exists s. split; [done|]. assert (ssort (head_before O []) kept = kept) as ->; [|done]. clear. induction kept as [|g l IH]; [done|]. cbn [ssort]. rewrite IH. destruct l as [|h l]; [done|]. cbn [sinsert]. by destruct g, h.
  Qed.
  Lemma group_answer (s : @st V) : tables_in O db q s -> q_distinct q = false -> NoDup (labels db q) ->
    exists rows, (let* s := visit_group O db q s in let* s := visit_order O db q s in let* p := visit_item O db (q_item q) s in let* f := need (fst p) in let* r := visit_items O db (q_items q) f (snd p) in
      if q_distinct q then visit_distinct O (set_cur (snd r) (fst r)) else Ok (fst r)) = Ok (mkFrame (labels db q) rows) /\ selects O db q rows.
  Proof.
    intros HT Hd Hl. pose proof (groups_good s HT) as Hgood. destruct (visit_group_ok s HT) as (s1 & -> & HE1). cbn [obind]. pose proof (ri_scope _ _ _ _ _ _ (ti_rows _ _ _ _ HT)) as Hgs. pose proof (ri_shape _ _ _ _ _ _ (ti_rows _ _ _ _ HT)) as Hsh.
    assert (Forall (good_group sc) kept) as Hgk by (apply Forall_forall; intros g Hg; rewrite Forall_forall in Hgood; by apply Hgood, kept_sub).
    destruct (visit_order_groups s1 _ Hgs Hgk HE1) as (s2 & -> & HE2). cbn [obind]. clear HE1. set (p := ssort _ kept) in *.
    destruct (all_items_ok O db p (fun is s => Forall (fun i => group_expr sc ks (fst i)) is /\ exists pre, L = pre ++ concat (map (fun i => aggs (fst i)) is) /\ eval_in O db sc ks L (length pre) p s)
      (fun i g => match ev_group O g (fst i) with Some v => Some [v] | None => None end) (item_labels db q)) with (i := q_item q) (is := q_items q) (s := s2) as (g & s3 & f & s4 & E3 & E4 & _ & El & Hr).
    - intros i is s0 (Hi & pre & EL & HE0). apply Forall_cons in Hi as [Hi His]. cbn [map concat] in EL. destruct (visit_eval O db sc ks Hgs Hks HkN L p (fst i) L_good Hi pre _ s0 EL HE0) as (v & s' & E & HE' & Hv).
      destruct (item_col O db _ p i s0 s' v E (en_cg _ _ _ _ _ _ _ _ HE') ltac:(left; rewrite (en_cur _ _ _ _ _ _ _ _ HE'); apply map_length) Hv) as (f & Ef & El & Hr). exists f, s'. split; [done|]. split; [|split; [|exact Hr]].
      + split; [done|]. exists (pre ++ aggs (fst i)). split; [|done]. by rewrite EL, <- app_assoc.
      + rewrite El. symmetry. by eapply group_star.
    - split; [exact Hits|]. eexists. split; [|exact HE2]. done.
    - exact Hl.
    - rewrite E3. cbn [obind need fst snd]. rewrite E4. cbn [obind fst snd]. rewrite Hd. exists (f_rows f). split.
      + destruct f as [fl fr]. cbn in El |- *. by rewrite El.
      + unfold selects. rewrite Hq. exists groups, p. split; [|split].
        * unfold groups, kb, keys. rewrite Hq. apply key_groups; [done|]. intros t Ht. apply has_kb; [done|]. rewrite Forall_forall in Hsh. auto.
        * unfold p, kept. apply head_sort; [done|]. intros g' Hg'. fold kept in Hg'. rewrite Forall_forall in Hgk. destruct (Hgk g' Hg') as [Hne Hs']. split; [done|]. intros t Ht k Hk.
          destruct (flat_cell sc t (fst k) Hgs (Hs' t Ht) (proj1 (Forall_forall _ _) Hks _ (proj1 (Forall_forall _ _) Hord k Hk))) as (v & Ev & _). rewrite Ev. eauto.
        * eapply Forall2_impl; [exact Hr|]. intros g' r (rs & Hm & ->). unfold group_row_of. by apply mapM_ones.
  Qed.
  End group.

  (** * Queries without GROUP BY *)
  Lemma shape_filter f sc (t : tuple) : shape sc t -> shape (filter (fun s => fst s = f) sc) (filter (fun s => fst s = f) t).
  Proof.
    unfold shape, SqlSpec.tuple in *. intros <-. induction t as [|[a r] t IH]; [done|]. cbn [map]. rewrite !filter_cons. cbn [fst]. destruct (decide (a = f)); cbn [map fst snd]; by rewrite IH.
  Qed.
  Lemma values_length q (t : tuple) i r : shape (scope db q) t -> item_values O t i = Some r -> length r = length (item_labels db q i).
  Proof.
    intros Hs. unfold item_values, item_labels. destruct (star_of (fst i)) as [[f|]|].
    - intros [= <-]. apply (flat_length (filter (fun s => fst s = f) (scope db q)) (filter (fun s => fst s = f) t)). by apply shape_filter.
    - intros [= <-]. by apply flat_length.
    - destruct (ev O t (fst i)); [|done]. by intros [= <-].
  Qed.
  Lemma row_length q (t : tuple) r : shape (scope db q) t -> row_of O q t = Some r -> length r = length (labels db q).
  Proof.
    intros Hs. unfold row_of, labels. destruct (mapM _ _) as [l|] eqn:E; [|done]. intros [= <-]. apply forall2_mapM in E. apply forall2_concat_length. apply Forall2_fmap_r. apply Forall2_flip. eapply Forall2_impl; [exact E|]. intros i x Hx. unfold compose. by eapply values_length.
  Qed.
  Lemma columns_ne r : good_table db r -> columns db r <> [].
  Proof. intros [(f & E & Hne & _) _]. unfold columns, table. rewrite E. by destruct (f_labels f). Qed.
  Lemma item_labels_ne q i : Forall (good_table db) (refs q) -> row_item (scope db q) i -> item_labels db q i <> [].
  Proof.
    intros Hg Hi. unfold row_item in Hi. unfold item_labels. destruct (star_of (fst i)) as [[f|]|]; [..|done].
    - destruct Hi as [cs Hcs]. pose proof Hcs as Ha. apply assoc_some_in in Hcs. apply (sc_of_assoc db) in Ha as (r & Hr & <- & <-). rewrite Forall_forall in Hg. pose proof (columns_ne r (Hg r Hr)) as Hc. destruct (columns db r) as [|c cs] eqn:Ec; [done|].
      intros E. assert (ident_text (Some (ref_alias r)) c ∈ ([] : list string)) as H; [|by apply elem_of_nil in H]. rewrite <- E. apply elem_of_list_bind. exists (ref_alias r, c :: cs). split; [apply elem_of_list_fmap; exists c; split; [done|left]|]. apply elem_of_list_filter. split; [done|]. done.
    - unfold scope, refs. cbn [map]. apply Forall_cons in Hg as [Hr _]. pose proof (columns_ne _ Hr) as Hc. rewrite bind_cons. cbn [fst snd]. by destruct (columns db (q_from q)).
  Qed.
  Lemma total_star sc (e : expr V) : total_expr sc e -> star_of e = None.
  Proof. by destruct e as [| |[f|] c| | | |]. Qed.
  Lemma labels_ne q : item_labels db q (q_item q) <> [] -> labels db q <> [].
  Proof. unfold labels, items. cbn [map concat]. by destruct (item_labels db q (q_item q)). Qed.

  Lemma plain_answer q (s : @st V) : Forall (good_table db) (refs q) -> tables_in O db q s -> q_group q = None -> Forall (fun o => in_scope (scope db q) (fst o)) (orders q) ->
    (if is_total q then Forall (fun i => total_expr (scope db q) (fst i) /\ has_agg (fst i) = true) (items q) else Forall (row_item (scope db q)) (items q)) -> NoDup (labels db q) ->
    exists rows', (let* s := visit_group O db q s in let* s := visit_order O db q s in let* p := visit_item O db (q_item q) s in let* f := need (fst p) in let* r := visit_items O db (q_items q) f (snd p) in
      if q_distinct q then visit_distinct O (set_cur (snd r) (fst r)) else Ok (fst r)) = Ok (mkFrame (labels db q) rows') /\
      exists rows, selects O db q rows /\ (if q_distinct q then distinct_of (row_lt O) rows rows' /\ StronglySorted (fun r s => row_lt O r s = true) rows' else rows' = rows).
  Proof.
    intros Htab HT Hq Ho Hi Hl. unfold visit_group. rewrite Hq. cbn [obind]. destruct (visit_order_rows O db q s HT Ho) as (s1 & -> & HR & Hcg & Hgrp & Hagg & Hcn & Hk). cbn [obind].
    pose proof (ti_nodup _ _ _ _ HT) as Hnd. pose proof (key_sort O W (orders q) (source O db q) Hk) as Hord. set (p := ssort _ _) in *.
    assert (exists g s2 f s3, visit_item O db (q_item q) s1 = Ok (Some g, s2) /\ visit_items O db (q_items q) g s2 = Ok (f, s3) /\ grp s3 = false /\ cname s3 = [] /\ f_labels f = labels db q /\ labels db q <> [] /\
      Forall (fun r => length r = length (labels db q)) (f_rows f) /\ (if is_total q then exists r, group_row_of O q p = Some r /\ f_rows f = [r] else Forall2 (fun t r => row_of O q t = Some r) p (f_rows f))) as (g & s2 & f & s3 & E1 & E2 & Hg3 & Hc3 & El & Hne & Hlen & Hrows).
    { destruct (is_total q) eqn:Et.
      - destruct (all_items_ok O db [p] (fun is s => Forall (fun i => total_expr (scope db q) (fst i) /\ has_agg (fst i) = true) is /\ total_in db (scope db q) p s)
          (fun i g => match ev_group O g (fst i) with Some v => Some [v] | None => None end) (item_labels db q)) with (i := q_item q) (is := q_items q) (s := s1) as (g & s2 & f & s3 & E1 & E2 & [_ HT3] & El & Hr).
        + intros i is s0 (Hi0 & HT0). apply Forall_cons in Hi0 as [[Hi1 Hi2] His]. destruct (visit_total O db _ p (fst i) Hi1 s0 HT0) as (v & s' & E & HT' & Hv & Hc). destruct (item_col O db _ [p] i s0 s' v E (to_cg _ _ _ _ HT') (or_intror (Hc Hi2)) Hv) as (f & Ef & El & Hr).
          exists f, s'. split; [done|]. split; [done|]. split; [|exact Hr]. rewrite El. unfold item_labels. by rewrite (total_star _ _ Hi1).
        + split; [exact Hi|]. by constructor.
        + exact Hl.
        + exists g, s2, f, s3. split; [done|]. split; [done|]. split; [apply HT3|]. split; [apply HT3|]. split; [done|].
          assert (forall i, i ∈ items q -> length (item_labels db q i) = 1) as H1. { intros i Hin. rewrite Forall_forall in Hi. destruct (Hi i Hin) as [Hti _]. unfold item_labels. by rewrite (total_star _ _ Hti). }
          split; [|split].
          * apply labels_ne. specialize (H1 (q_item q) ltac:(left)). by destruct (item_labels db q (q_item q)).
          * inversion Hr as [|? r ? rs (vs & Hm & ->) Hn Ea Eb]; subst. inversion Hn; subst. apply Forall_singleton. apply forall2_mapM in Hm. apply forall2_concat_length. apply Forall2_fmap_r. apply Forall2_flip. apply forall2_elem_r in Hm. eapply Forall2_impl; [exact Hm|].
            intros i x (Hx & Hin & _). unfold compose. rewrite (H1 i Hin). destruct (ev_group O p (fst i)); [|done]. by injection Hx as <-.
          * inversion Hr as [|? r ? rs (vs & Hm & ->) Hn Ea Eb]; subst. inversion Hn; subst. exists (concat vs). split; [|done]. by apply mapM_ones.
      - destruct (all_items_ok O db p (fun is s => Forall (row_item (scope db q)) is /\ s = s1) (fun i t => item_values O t i) (item_labels db q)) with (i := q_item q) (is := q_items q) (s := s1) as (g & s2 & f & s3 & E1 & E2 & [_ ->] & El & Hr).
        + intros i is s0 (Hi0 & ->). apply Forall_cons in Hi0 as [Hi1 His]. destruct (row_item_ok O db q p s1 i HR Hnd Hcg Hgrp Hagg Hi1) as (f & E & Elf & Hrf). exists f, s1. done.
        + done.
        + exact Hl.
        + exists g, s2, f, s1. split; [done|]. split; [done|]. split; [done|]. split; [done|]. split; [done|].
          assert (Forall2 (fun t r => row_of O q t = Some r) p (f_rows f)) as Hro. { eapply Forall2_impl; [exact Hr|]. intros t r (rs & Hm & ->). unfold row_of, items. assert (mapM (item_values O t) (q_item q :: q_items q) = Some rs) as -> by exact Hm. done. }
          split; [|split; [|done]].
          * apply labels_ne, item_labels_ne; [done|]. by apply Forall_cons in Hi as [? _].
          * pose proof (ri_shape _ _ _ _ _ _ HR) as Hsh. rewrite Forall_forall in Hsh. apply Forall_forall. intros r (k & Hk')%elem_of_list_lookup. destruct (Forall2_lookup_r _ _ _ _ _ Hro Hk') as (t & Ht & Hrow). eapply row_length; [|exact Hrow]. apply Hsh. by eapply elem_of_list_lookup_2. }
    rewrite E1. cbn [obind need fst snd]. rewrite E2. cbn [obind fst snd].
    assert (selects O db q (f_rows f)) as Hsel by (unfold selects; rewrite Hq; exists p; done).
    destruct (q_distinct q) eqn:Ed.
    - destruct (distinct_ok O W (labels db q) (f_rows f) (set_cur s3 f)) as (rows' & E & Hd); [done|done| |done..|]. { destruct f as [fl fr]. cbn in El |- *. by rewrite El. } exists rows'. split; [done|]. eauto.
    - exists (f_rows f). split; [|eauto]. destruct f as [fl fr]. cbn in El |- *. by rewrite El.
  Qed.
  Theorem sql_answer q : well_formed db q -> exists ls rows, run_sql O db q = Ok (mkFrame ls rows) /\ answer O db q ls rows.
  Proof.
    intros (Hr & Hj & Hw & Hl & Hg). pose proof (good_refs_tables db _ _ Hr) as Htab. unfold run_sql. destruct (visit_tables_ok O db q Hr Hj Hw) as (s & -> & HT). cbn [obind]. exists (labels db q). destruct (q_group q) as [[[k ks] having]|] eqn:Eq.
    - unfold keys in Hg. rewrite Eq in Hg. destruct Hg as (H1 & H2 & H3 & H4 & H5 & H6 & H7). destruct (group_answer q k ks having Eq H1 H2) with (s := s) as (rows & E & Hsel); try done.
      + intros f (x & -> & Hx)%elem_of_list_fmap. apply elem_of_list_fmap in Hx as (r & -> & Hin). rewrite Forall_forall in H3. by apply H3.
      + exists rows. split; [exact E|]. split; [done|]. exists rows. split; [done|]. by rewrite H7.
    - destruct Hg as (H1 & H2 & H3). destruct (plain_answer q s Htab HT Eq H1 H3 Hl) as (rows' & E & rows & Hsel & Hd). exists rows'. split; [exact E|]. split; [done|]. eauto.
  Qed.
End answer.
