(** WHERE, ORDER BY and the selected columns of queries without GROUP BY. *)
From stdpp Require Import base numbers sorting list strings.
From Coq Require Import Ascii.
From Verif Require Import CppBase OrderSpec SqlSyntax SqlModel SqlSpec SqlSort SqlNames SqlRows SqlVisit SqlTables.
Local Open Scope string_scope.
Local Open Scope list_scope.

Lemma forall2_map_l {A B} (g : B -> A) (P : B -> Prop) (l : list B) : (forall x, x ∈ l -> P x) -> Forall2 (fun y x => y = g x /\ P x) (map g l) l.
Proof. intros H. apply Forall2_fmap_l. apply Forall_Forall2_diag. apply Forall_forall. auto. Qed.
Lemma forall2_map_eq {A B} (g : B -> A) (P : B -> Prop) k (l : list B) : Forall2 (fun y x => y = g x /\ P x) k l -> k = map g l.
Proof. induction 1 as [|y x k l [-> _] _ IH]; cbn; congruence. Qed.
Lemma ssort_map {A B} (lt : A -> A -> bool) (lt' : B -> B -> bool) (g : B -> A) l : (forall x y, x ∈ l -> y ∈ l -> lt (g x) (g y) = lt' x y) -> ssort lt (map g l) = map g (ssort lt' l).
Proof. intros H. apply (forall2_map_eq g (fun x => x ∈ l)). apply ssort_rel; [|by apply forall2_map_l]. intros x x' y y' [-> Hy] [-> Hy']. auto. Qed.
Lemma runs_map {A B} (lt : A -> A -> bool) (lt' : B -> B -> bool) (g : B -> A) l : (forall x y, x ∈ l -> y ∈ l -> lt (g x) (g y) = lt' x y) ->
  runs lt (ssort lt (map g l)) = map (map g) (runs lt' (ssort lt' l)).
Proof.
  intros H. assert (Forall2 (Forall2 (fun y x => y = g x /\ x ∈ l)) (runs lt (ssort lt (map g l))) (runs lt' (ssort lt' l))) as E.
  { apply runs_rel; [intros x x' y y' [-> Hy] [-> Hy']; auto|]. apply ssort_rel; [intros x x' y y' [-> Hy] [-> Hy']; auto|]. by apply forall2_map_l. }
  induction E as [|k h ks hs Hk _ IH]; [done|]. cbn [map]. rewrite <- IH. f_equal. by apply forall2_map_eq in Hk.
Qed.

Section query.
  Context {V : Type} (O : ops V) (db : list (string * frame V)).
  Notation tuple := (@tuple V).
  Lemma filter_row_map {A} (g : A -> list V) (F : A -> option V) ts c ls : Forall2 (fun t x => F t = Some x) ts c ->
    filter_row O (mkFrame ls (map g ts)) c = Ok (mkFrame ls (map g (filter (fun t => holds O (F t) = true) ts))).
  Proof.
    intros H. unfold filter_row. cbn [f_rows f_labels]. rewrite decide_True by (rewrite map_length; symmetry; by eapply Forall2_length). do 2 f_equal.
    induction H as [|t x ts c Hx _ IH]; [done|]. cbn [map zip zip_with]. rewrite !filter_cons. cbn [snd]. rewrite Hx. cbn [holds]. change (zip_with pair (map g ts) c) with (zip (map g ts) c).
    destruct (decide (truthy O x = true)); cbn [map fst]; congruence.
  Qed.
  Lemma rows_in_plain sc ts (s : @st V) : names_ok db sc s -> good_scope sc -> Forall (shape sc) ts -> cur s = mkFrame (sl sc) (map flat ts) -> rows_in db sc [] (fun _ => []) ts s.
  Proof. intros H1 H2 H3 H4. constructor; try done. rewrite H4, app_nil_r. f_equal. unfold ext_rows. apply map_ext. intros t. by rewrite app_nil_r. Qed.
  Lemma rows_plain sc ts (s : @st V) : rows_in db sc [] (fun _ => []) ts s -> cur s = mkFrame (sl sc) (map flat ts).
  Proof. intros [_ _ _ ->]. rewrite app_nil_r. f_equal. unfold ext_rows. apply map_ext. intros t. by rewrite app_nil_r. Qed.
  Lemma rows_in_same sc names ext ts (s s' : @st V) : alias s' = alias s -> prefix s' = prefix s -> cur s' = cur s -> rows_in db sc names ext ts s -> rows_in db sc names ext ts s'.
  Proof. intros E1 E2 E3 [H1 H2 H3 H4]. constructor; try done; [|congruence]. intros f cs Ef. unfold has_frame. rewrite E1, E2. by apply H1 in Ef. Qed.
  Lemma visit_where_ok sc ts (s : @st V) e : rows_in db sc [] (fun _ => []) ts s -> cg s = true -> grp s = false -> row_expr sc e ->
    visit_where O db e s = Ok (set_cur s (mkFrame (sl sc) (map flat (filter (fun t => holds O (ev O t e) = true) ts)))).
  Proof.
    intros HR Hc Hg He. destruct (visit_row O db _ _ _ _ _ _ HR Hc (or_introl Hg) He) as (v & E & Hv & _). unfold visit_where. rewrite E. cbn [obind need fst snd].
    destruct (to_col_ok _ ts v s (rows_length _ _ _ _ _ _ HR) Hv) as (c & -> & Hcol). cbn [obind]. rewrite (rows_plain _ _ _ HR), (filter_row_map _ (fun t => ev O t e)) by done. done.
  Qed.

  (** the state behind FROM, JOIN and WHERE *)
  Record tables_in (q : query V) (s : @st V) : Prop := mkTablesIn {
    ti_rows : rows_in db (scope db q) [] (fun _ => []) (source O db q) s;
    ti_nodup : NoDup (sl (scope db q));
    ti_cg : cg s = true; ti_grp : grp s = false; ti_agg : agg s = false;
    ti_grouped : grouped s = []; ti_gname : gname s = []; ti_cname : cname s = []; ti_fname : fname s = []; ti_gc : gc s = 0; ti_gcc : gcc s = 0 }.
  Lemma visit_tables_ok q : good_refs db [] (refs q) -> good_joins db (q_from q :: q_froms q) (q_joins q) -> (forall e, q_where q = Some e -> row_expr (scope db q) e) ->
    exists s, visit_tables O db q start = Ok s /\ tables_in q s.
  Proof.
    intros Hr Hj Hw. pose proof (sc_nodup db _ Hr) as Hn. pose proof (sc_good db _ (good_refs_tables db _ _ Hr)) as Hg. change (scope db q) with (sc_of db (refs q)) in *.
    assert (refs q = (q_from q :: q_froms q) ++ map j_ref (q_joins q)) as Er by done. rewrite Er in Hr. pose proof (proj1 (good_refs_app db _ _ _) Hr) as [Hr1 Hr2]. cbn [app] in Hr2.
    pose proof Hn as Hn'. rewrite Er, sc_of_app, sl_app in Hn'.
    unfold visit_tables. destruct (visit_from_ok db (q_from q) (q_froms q) [] (set_flags (@start V) true (grp (@start V)) (agg (@start V))) Hr1 (nodup_app_l _ _ Hn')) as (a & p & r & E & HR & Hs).
    { constructor; cbn; try done; intros ? H; by apply elem_of_nil in H. }
    rewrite E. cbn [obind fst snd]. clear E. cbn [app] in HR.
    destruct (visit_joins_ok O db (q_joins q) (q_from q :: q_froms q) (from_tuples db (q_from q) (q_froms q)) (set_cur (set_names (set_flags (@start V) true (grp (@start V)) (agg (@start V))) a p r) (mkFrame (sl (sc_of db (q_from q :: q_froms q))) (map flat (from_tuples db (q_from q) (q_froms q))))))
      as (a' & p' & r' & E & HR' & Hs').
    { by apply (good_refs_tables db []). }
    { done. }
    { by rewrite <- Er. }
    { done. }
    { by eapply refs_in_same; [..|exact HR]. }
    { done. }
    { done. }
    rewrite E. cbn [obind]. clear E. rewrite <- Er in HR', Hs' |- *. set (s1 := set_cur _ _). set (ts := foldl _ _ _) in *.
    assert (rows_in db (sc_of db (refs q)) [] (fun _ => []) ts s1) as HR1. { apply rows_in_plain; [|done..]. apply refs_names. by eapply refs_in_same; [..|exact HR']. }
    destruct (q_where q) as [e|] eqn:Ew.
    - rewrite (visit_where_ok (sc_of db (refs q)) ts); [|done..|by apply Hw]. eexists. split; [done|]. constructor; try done. unfold source. fold ts. rewrite Ew. apply rows_in_plain; [|done| |done].
      + apply refs_names. by eapply refs_in_same; [..|exact HR'].
      + apply Forall_forall. intros t [_ Ht]%elem_of_list_filter. rewrite Forall_forall in Hs'. auto.
    - eexists. split; [done|]. constructor; try done. unfold source. fold ts. by rewrite Ew.
  Qed.

  (** * Selected columns *)
  Section items.
    Context {A : Type} (ts : list A) (I : list (item V) -> @st V -> Prop) (val : item V -> A -> option (list V)) (lab : item V -> list string).
    Context (step : forall i is s, I (i :: is) s -> exists f s', visit_item O db i s = Ok (Some f, s') /\ I is s' /\ f_labels f = lab i /\ Forall2 (fun t r => val i t = Some r) ts (f_rows f)).
    Lemma visit_items_ok is : forall s (G : A -> option (list V)) f, I is s -> Forall2 (fun t r => G t = Some r) ts (f_rows f) -> NoDup (f_labels f ++ concat (map lab is)) ->
      exists f' s', visit_items O db is f s = Ok (f', s') /\ I [] s' /\ f_labels f' = f_labels f ++ concat (map lab is) /\
        Forall2 (fun t r => exists r0 rs, G t = Some r0 /\ mapM (fun i => val i t) is = Some rs /\ r = r0 ++ concat rs) ts (f_rows f').
    Proof.
      induction is as [|i is IH]; intros s G f HI HG Hn.
      - exists f, s. cbn [visit_items]. split; [done|]. split; [done|]. split; [cbn; by rewrite app_nil_r|]. eapply Forall2_impl; [exact HG|]. cbn. intros t r H. exists r, []. by rewrite app_nil_r.
      - destruct (step i is s HI) as (g & s' & E & HI' & El & Hv). cbn [visit_items]. rewrite E. cbn [obind need fst snd]. unfold col_bind.
        rewrite decide_True by (rewrite <- (Forall2_length _ _ _ HG), <- (Forall2_length _ _ _ Hv); done). unfold make_frame. cbn [map concat] in Hn. rewrite app_assoc in Hn. rewrite El.
        rewrite decide_True by (by apply nodup_app_l in Hn). cbn [obind].
        destruct (IH s' (fun t => match G t, val i t with Some a, Some b => Some (a ++ b) | _, _ => None end) (mkFrame (f_labels f ++ lab i) (zip_with app (f_rows f) (f_rows g))) HI') as (f' & s'' & E' & HI'' & El' & Hr).
        + cbn [f_rows]. clear -HG Hv. revert Hv. generalize (f_rows g). induction HG as [|t r ts rs Hr _ IH]; intros k Hk; inversion Hk as [|? x ? k' Hx Hk']; subst; cbn; constructor; [|auto]. by rewrite Hr, Hx.
        + done.
        + exists f', s''. split; [done|]. split; [done|]. split; [rewrite El'; cbn [f_labels map concat]; by rewrite app_assoc|]. eapply Forall2_impl; [exact Hr|]. cbn. intros t r (r0 & rs & H0 & Hm & ->).
          destruct (G t) as [a|]; [|done]. destruct (val i t) as [b|] eqn:Eb; [|done]. injection H0 as <-. exists a, (b :: rs). split; [done|]. split; [|cbn; by rewrite app_assoc]. by rewrite Hm.
    Qed.
    Lemma all_items_ok i is s : I (i :: is) s -> NoDup (concat (map lab (i :: is))) ->
      exists g s1 f s2, visit_item O db i s = Ok (Some g, s1) /\ visit_items O db is g s1 = Ok (f, s2) /\ I [] s2 /\ f_labels f = concat (map lab (i :: is)) /\
        Forall2 (fun t r => exists rs, mapM (fun i => val i t) (i :: is) = Some rs /\ r = concat rs) ts (f_rows f).
    Proof.
      intros HI Hn. destruct (step i is s HI) as (g & s1 & E & HI' & El & Hv). cbn [map concat] in Hn. rewrite <- El in Hn. destruct (visit_items_ok is s1 _ g HI' Hv Hn) as (f & s2 & E2 & HI2 & El2 & Hr).
      exists g, s1, f, s2. split; [done|]. split; [done|]. split; [done|]. split; [rewrite El2, El; done|]. eapply Forall2_impl; [exact Hr|]. cbn. intros t r (r0 & rs & H0 & Hm & ->). exists (r0 :: rs). by rewrite H0, Hm.
    Qed.
  End items.
  Lemma col_frame_rows {A} (F : A -> option V) (ts : list A) c l : Forall2 (fun t x => F t = Some x) ts c -> Forall2 (fun t r => match F t with Some v => Some [v] | None => None end = Some r) ts (f_rows (col_to_frame c l)).
  Proof. intros H. cbn. apply Forall2_fmap_r. eapply Forall2_impl; [exact H|]. cbn. intros t x ->. done. Qed.

  (** * f.* *)
  Lemma before_label p c : id_chars p = true -> before_dot (ident_text (Some p) c) = p.
  Proof. apply before_dot_app. Qed.
  Lemma filter_none {B} (P : B -> Prop) `{!forall x, Decision (P x)} (l : list B) : (forall x, x ∈ l -> ~ P x) -> filter P l = [].
  Proof. induction l as [|x l IH]; intros H'; [done|]. rewrite filter_cons_False by (apply H'; left). apply IH. intros y Hy. apply H'. by right. Qed.
  Lemma filter_every {B} (P : B -> Prop) `{!forall x, Decision (P x)} (l : list B) : (forall x, x ∈ l -> P x) -> filter P l = l.
  Proof. induction l as [|x l IH]; intros H'; [done|]. rewrite filter_cons_True by (apply H'; left). f_equal. apply IH. intros y Hy. apply H'. by right. Qed.
  Lemma filter_sl f sc : good_scope sc -> filter (fun l => before_dot l = f) (sl sc) = sl (filter (fun s => fst s = f) sc).
  Proof.
    induction sc as [|[p cs] sc IH]; intros Hg; [done|]. apply Forall_cons in Hg as [[_ Hp] Hg]. cbn [fst] in Hp. change (sl ((p, cs) :: sc)) with (map (fun c => ident_text (Some p) c) cs ++ sl sc).
    rewrite filter_app, IH, filter_cons by done. cbn [fst]. destruct (decide (p = f)) as [->|Hne].
    - rewrite filter_every; [done|]. intros l (c & -> & _)%elem_of_list_fmap. by apply before_label.
    - rewrite filter_none; [done|]. intros l (c & -> & _)%elem_of_list_fmap. by rewrite before_label.
  Qed.
  Lemma zip_app' {B C} (a b : list B) (c d : list C) : length a = length c -> zip (a ++ b) (c ++ d) = zip a c ++ zip b d.
  Proof. intros H. by apply zip_with_app. Qed.
  Lemma filter_flat f sc (t : tuple) : good_scope sc -> shape sc t -> map snd (filter (fun p => before_dot (fst p) = f) (zip (sl sc) (flat t))) = flat (filter (fun s => fst s = f) t).
  Proof.
    unfold shape, SqlSpec.tuple in *. intros Hg <-. induction t as [|[a r] t IH]; [done|]. cbn [map] in Hg |- *. apply Forall_cons in Hg as [[_ Hp] Hg]. cbn [fst snd] in *.
    change (flat ((a, r) :: t)) with (map snd r ++ flat t). change (sl ((a, map fst r) :: ?x)) with (map (fun c => ident_text (Some a) c) (map fst r) ++ sl x).
    rewrite zip_app' by (by rewrite !map_length). rewrite filter_app, map_app, IH, filter_cons by done. cbn [fst].
    assert (forall p, p ∈ zip (map (fun c => ident_text (Some a) c) (map fst r)) (map snd r) -> before_dot (fst p) = a) as Hb.
    { intros [l v] Hl%elem_of_zip_l. cbn. apply elem_of_list_fmap in Hl as (c & -> & _). by apply before_label. }
    destruct (decide (a = f)) as [->|Hne].
    - rewrite filter_every by done. rewrite snd_zip by (by rewrite !map_length). done.
    - rewrite filter_none; [done|]. intros p Hp'. by rewrite (Hb p Hp').
  Qed.
  Lemma mapM_cells (ls : list string) (r : list V) (P : string -> Prop) `{!forall x, Decision (P x)} : NoDup ls -> length r = length ls -> mapM (cell ls r) (filter P ls) = Some (map snd (filter (fun p => P (fst p)) (zip ls r))).
  Proof.
    intros Hn Hl. apply forall2_mapM. assert (forall ls0 r0 ls1 r1, ls = ls0 ++ ls1 -> r = r0 ++ r1 -> length r0 = length ls0 -> length r1 = length ls1 ->
      Forall2 (fun x y => cell ls r x = Some y) (filter P ls1) (map snd (filter (fun p => P (fst p)) (zip ls1 r1)))) as H'; [|by apply (H' [] [] ls r)].
    intros ls0 r0 ls1 r1. revert ls0 r0 r1. induction ls1 as [|l ls1 IH]; intros ls0 r0 [|v r1] E1 E2 L0 L1; cbn [length] in L1; try lia; [constructor|]. cbn [zip zip_with]. rewrite !filter_cons. cbn [fst].
    assert (Forall2 (fun x y => cell ls r x = Some y) (filter P ls1) (map snd (filter (fun p => P (fst p)) (zip ls1 r1)))) as IH'.
    { apply (IH (ls0 ++ [l]) (r0 ++ [v])); [by rewrite <- app_assoc|by rewrite <- app_assoc|rewrite !app_length; cbn; lia|lia]. }
    destruct (decide (P l)); [|done]. cbn [map snd]. constructor; [|done]. apply (cell_nodup ls r (length ls0)); [done|rewrite E1; by apply list_lookup_middle|rewrite E2; by apply list_lookup_middle].
  Qed.
  Lemma extract_star f sc (ts : list tuple) : good_scope sc -> NoDup (sl sc) -> Forall (shape sc) ts ->
    extract_col (mkFrame (sl sc) (map flat ts)) (f +++ ".*") = Ok (mkFrame (sl (filter (fun s => fst s = f) sc)) (map (fun t => flat (filter (fun s => fst s = f) t)) ts)) \/ id_chars f = false.
  Proof.
    intros Hg Hn Hs. destruct (id_chars f) eqn:Hf; [left|by right]. unfold extract_col. change (f +++ ".*") with (f +++ "." +++ "*"). rewrite behind_dot_app, before_dot_app by done. destruct (string_dec _ _); [|done]. cbn [f_labels].
    set (fl := filter (fun l => before_dot l = f) (sl sc)).
    assert (exists idxs, Forall2 (fun l i => index_of l (sl sc) = Some i) fl idxs) as (idxs & Hi).
    { apply forall2_exists. intros l [_ Hl]%elem_of_list_filter. by apply index_some. }
    rewrite (omapM_ok _ _ idxs) by (eapply Forall2_impl; [exact Hi|]; cbn; intros l i E; unfold col_idx; cbn [f_labels]; by rewrite E). cbn [obind]. unfold select_cols. cbn [f_labels f_rows].
    assert (mapM (fun i => sl sc !! i) idxs = Some fl) as ->. { apply forall2_mapM. apply Forall2_flip. eapply Forall2_impl; [exact Hi|]. cbn. intros l i E. by apply index_lookup. }
    cbn [obind]. rewrite (omapM_ok _ _ (map (fun t => flat (filter (fun s => fst s = f) t)) ts)).
    - cbn [obind]. unfold make_frame. unfold fl. rewrite filter_sl by done. rewrite decide_True; [done|]. rewrite <- filter_sl by done. by apply NoDup_filter.
    - apply Forall2_fmap_l, Forall2_fmap_r, Forall_Forall2_diag. eapply Forall_impl; [exact Hs|]. cbn. intros t Ht. unfold cells.
      assert (mapM (cell (sl sc) (flat t)) fl = Some (flat (filter (fun s => fst s = f) t))) as Hm.
      { rewrite <- (filter_flat f sc t Hg Ht). exact (mapM_cells (sl sc) (flat t) (fun l => before_dot l = f) Hn (flat_length _ _ Ht)). }
      apply forall2_mapM in Hm. assert (mapM (fun i => flat t !! i) idxs = Some (flat (filter (fun s => fst s = f) t))) as ->; [|done]. apply forall2_mapM.
      clear -Hi Hm. revert Hm. generalize (flat (filter (fun s => fst s = f) t)). induction Hi as [|l i fl idxs E _ IH]; intros vs Hv; inversion Hv as [|? v ? vs' E' Hv']; subst; constructor; [|auto]. unfold cell in E'. by rewrite E in E'.
  Qed.

  (** * ORDER BY *)
  Lemma order_keys_ok sc (s : @st V) os : good_scope sc -> names_ok db sc s -> Forall (fun o => in_scope sc (fst o) /\ ident_text (fst (fst o)) (snd (fst o)) ∈ f_labels (cur s)) os ->
    exists ks, order_keys db os s = Ok ks /\ Forall2 (fun o k => snd k = snd o /\ index_of (ident_text (fst (fst o)) (snd (fst o))) (f_labels (cur s)) = Some (fst k)) os ks.
  Proof.
    intros Hg Hn. induction 1 as [|[i a] os [Hi Hl] _ (ks & E & H)]; [by exists []|]. cbn [fst snd] in *. cbn [order_keys]. rewrite (ident_name_ok db sc) by done. cbn [obind]. unfold col_idx.
    destruct (index_some _ _ Hl) as (k & Ek). rewrite Ek. cbn [obind]. rewrite E. cbn [obind]. exists ((k, a) :: ks). split; [done|]. by constructor.
  Qed.
  Lemma order_frame_map {A} (g : A -> list V) (lt : A -> A -> bool) (ts : list A) ls ks : (forall k, k ∈ ks -> (fst k < length ls)%nat) -> (forall t u, t ∈ ts -> u ∈ ts -> row_before O ks (g t) (g u) = lt t u) ->
    order_frame O (mkFrame ls (map g ts)) ks = Ok (mkFrame ls (map g (ssort lt ts))).
  Proof.
    intros H1 H2. unfold order_frame. cbn [f_labels f_rows]. rewrite (proj2 (forallb_forall _ _)); [by rewrite (ssort_map _ lt)|]. intros k Hk%elem_of_list_In. apply Nat.ltb_lt. auto.
  Qed.
  Lemma visit_order_rows q (s : @st V) : tables_in q s -> Forall (fun o => in_scope (scope db q) (fst o)) (orders q) ->
    exists s', visit_order O db q s = Ok s' /\ rows_in db (scope db q) [] (fun _ => []) (ssort (key_before O (orders q)) (source O db q)) s' /\
      cg s' = true /\ grp s' = false /\ agg s' = false /\ cname s' = [] /\ (forall t, t ∈ source O db q -> has_keys (orders q) t).
  Proof.
    intros HT Ho. pose proof (ti_rows _ _ HT) as HR. pose proof HR as [Hn Hg Hs _]. pose proof (rows_plain _ _ _ HR) as Hcur.
    assert (forall t, t ∈ source O db q -> has_keys (orders q) t) as Hk.
    { intros t Ht k Hk. destruct (flat_cell _ _ _ Hg (proj1 (Forall_forall _ _) Hs t Ht) (proj1 (Forall_forall _ _) Ho k Hk)) as (v & -> & _). eauto. }
    unfold visit_order. unfold orders in *. destruct (q_order q) as [os|] eqn:Eo.
    - destruct (order_keys_ok (scope db q) s os Hg Hn) as (ks & E & HK).
      { eapply Forall_impl; [exact Ho|]. cbn. intros o Hi. split; [done|]. rewrite Hcur. by apply sl_in. }
      rewrite E. cbn [obind]. rewrite Hcur in HK |- *. cbn [f_labels] in HK. rewrite (order_frame_map flat (key_before O os)).
      + cbn [obind]. eexists. split; [done|]. split; [|by destruct HT]. apply rows_in_plain; [done..| |done]. apply Forall_forall. intros t Ht. rewrite ssort_perm in Ht. rewrite Forall_forall in Hs. auto.
      + intros k (i & Hi)%elem_of_list_lookup. destruct (Forall2_lookup_r _ _ _ _ _ HK Hi) as (o & _ & _ & Ei). apply index_lookup in Ei. by eapply lookup_lt_Some.
      + intros t u Ht Hu. apply row_before_key. apply Forall2_flip. pose proof (proj1 (Forall_forall _ _) Hs) as Hs'. pose proof (proj1 (Forall_forall _ _) Ho) as Ho'. apply forall2_elem_r in HK. eapply Forall2_impl; [exact HK|]. intros [[f c] b] [k kb] ((Ek & Ei) & Hin & _). cbn [fst snd] in *. split; [done|].
        destruct (flat_cell _ _ _ Hg (Hs' t Ht) (Ho' _ Hin)) as (x & Ex & Cx), (flat_cell _ _ _ Hg (Hs' u Hu) (Ho' _ Hin)) as (y & Ey & Cy). cbn [fst snd] in *. rewrite Ex, Ey. unfold cell in Cx, Cy. rewrite Ei in Cx, Cy. done.
    - exists s. split; [done|]. split; [|by destruct HT]. assert (ssort (key_before O []) (source O db q) = source O db q) as ->; [|done]. clear. induction (source O db q) as [|t l IH]; [done|]. cbn [ssort]. rewrite IH. by destruct l.
  Qed.
End query.
