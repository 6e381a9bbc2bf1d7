(** Expressions over single rows, and the tables of a query. *)
From stdpp Require Import base numbers sorting list strings.
From Coq Require Import Ascii.
From Verif Require Import CppBase OrderSpec SqlSyntax SqlModel SqlSpec SqlSort SqlNames SqlRows.
Local Open Scope string_scope.
Local Open Scope list_scope.

Section visit.
  Context {V : Type} (O : ops V) (db : list (string * frame V)).
  Notation tuple := (@tuple V).
  (** * Values of expressions over a list of things *)
  Definition denotes {A} (F : A -> option V) (ts : list A) (v : rval) : Prop :=
    match v with RCol c => Forall2 (fun t x => F t = Some x) ts c | RScal x => forall t, t ∈ ts -> F t = Some x | RFrame _ => False end.
  Definition lift2 {A} (op : binop) (F G : A -> option V) (t : A) : option V := match F t, G t with Some x, Some y => Some (bop O op x y) | _, _ => None end.
  Lemma denotes_ext {A} (F G : A -> option V) ts v : (forall t, t ∈ ts -> F t = G t) -> denotes F ts v -> denotes G ts v.
  Proof.
    intros H. destruct v as [f|c|x]; cbn; [done| |intros Hx t Ht; rewrite <- H by done; auto]. intros Hc. apply forall2_elem_r in Hc. eapply Forall2_impl; [exact Hc|]. cbn. intros t x (E & Ht & _). by rewrite <- H.
  Qed.
  Lemma ew_ok {A} op (F G : A -> option V) ts x y : denotes F ts x -> denotes G ts y ->
    exists v, ew O op x y = Ok v /\ denotes (lift2 op F G) ts v /\ ((exists c, x = RCol c) \/ (exists c, y = RCol c) -> exists c, v = RCol c).
  Proof.
    destruct x as [f|a|a], y as [g|b|b]; try done; cbn [denotes ew]; intros Ha Hb.
    - rewrite decide_True by (rewrite <- (Forall2_length _ _ _ Ha), <- (Forall2_length _ _ _ Hb); done). eexists. split; [done|]. split; [|eauto]. cbn.
      revert b Hb. induction Ha as [|t x ts a Hx Ha IH]; intros b Hb; inversion Hb; subst; cbn; constructor; [|auto]. unfold lift2. by simplify_option_eq.
    - eexists. split; [done|]. split; [|eauto]. cbn. apply forall2_elem_r in Ha. clear -Ha Hb. assert (forall t, t ∈ ts -> G t = Some b) as Hb' by done.
      apply Forall2_fmap_r. eapply Forall2_impl; [exact Ha|]. cbn. intros t x (E & Ht & _). unfold lift2. by rewrite E, Hb.
    - eexists. split; [done|]. split; [|eauto]. cbn. apply forall2_elem_r in Hb. apply Forall2_fmap_r. eapply Forall2_impl; [exact Hb|]. cbn. intros t x (E & Ht & _). unfold lift2. by rewrite Ha, E.
    - eexists. split; [done|]. split; [|intros [[c [=]]|[c [=]]]]. cbn. intros t Ht. unfold lift2. by rewrite Ha, Hb.
  Qed.
  Lemma to_col_ok {A} (F : A -> option V) ts v (s : @st V) : length (f_rows (cur s)) = length ts -> denotes F ts v -> exists c, to_col s v = Ok c /\ Forall2 (fun t x => F t = Some x) ts c.
  Proof.
    intros Hl. destruct v as [f|c|x]; cbn; [done|by eauto|]. intros Hx. eexists. split; [done|]. rewrite Hl. clear Hl. induction ts as [|t ts IH]; cbn; constructor; [apply Hx; left|]. apply IH. intros u Hu. apply Hx. by right.
  Qed.
  Lemma apply_op_ok {A} op (F G : A -> option V) ts x y (s : @st V) : length (f_rows (cur s)) = length ts -> op <> BBang -> denotes F ts x -> denotes G ts y ->
    exists v, apply_op O s op x y = Ok v /\ denotes (lift2 op F G) ts v /\ ((exists c, x = RCol c) \/ (exists c, y = RCol c) -> exists c, v = RCol c).
  Proof.
    intros Hl Hop Hx Hy. destruct (to_col_ok F ts x s Hl Hx) as (a & Ea & Ha). destruct (to_col_ok G ts y s Hl Hy) as (b & Eb & Hb).
    destruct (ew_ok op F G ts (RCol a) (RCol b) Ha Hb) as (v & E & Hv & Hc). destruct (ew_ok op F G ts x y Hx Hy) as (w & E' & Hw & Hc').
    destruct op; cbn [apply_op]; try done; eauto; rewrite Ea; cbn [obind]; rewrite Eb; cbn [obind]; exists v; repeat split; eauto.
  Qed.
  Lemma between_op_ok {A} (F G H : A -> option V) ts x l h : denotes F ts x -> denotes G ts l -> denotes H ts h ->
    exists v, between_op O x l h = Ok v /\ denotes (fun t => match F t, G t, H t with Some x, Some y, Some z => Some (between O x y z) | _, _, _ => None end) ts v /\
      ((exists c, x = RCol c) \/ (exists c, l = RCol c) \/ (exists c, h = RCol c) -> exists c, v = RCol c).
  Proof.
    intros Hx Hl Hh. unfold between_op.
    destruct (ew_ok BGe F G ts x l Hx Hl) as (a1 & -> & Ha1 & Ca1). cbn [obind]. destruct (ew_ok BLe F H ts x h Hx Hh) as (a2 & -> & Ha2 & Ca2). cbn [obind].
    destruct (ew_ok BAnd _ _ ts a1 a2 Ha1 Ha2) as (a & -> & Ha & Ca). cbn [obind].
    destruct (ew_ok BGe F H ts x h Hx Hh) as (b1 & -> & Hb1 & Cb1). cbn [obind]. destruct (ew_ok BLe F G ts x l Hx Hl) as (b2 & -> & Hb2 & Cb2). cbn [obind].
    destruct (ew_ok BAnd _ _ ts b1 b2 Hb1 Hb2) as (b & -> & Hb & Cb). cbn [obind]. destruct (ew_ok BOr _ _ ts a b Ha Hb) as (v & -> & Hv & Cv).
    exists v. split; [done|]. split; [|intros [C|[C|C]]; apply Cv; left; apply Ca; auto]. eapply denotes_ext; [|exact Hv]. intros t _. unfold lift2. cbn. by destruct (F t), (G t), (H t).
  Qed.

  (** * Columns *)
  Lemma mapM_singleton {A B} (f : A -> option B) x y : f x = Some y -> mapM f [x] = Some [y].
  Proof. intros H. apply mapM_Some. by repeat constructor. Qed.
  Lemma extract_matrix_ok (s : @st V) l c : behind_dot l <> "*" -> l ∈ f_labels (cur s) -> Forall2 (fun r x => cell (f_labels (cur s)) r l = Some x) (f_rows (cur s)) c -> extract_matrix s l = Ok c.
  Proof.
    intros Hl Hin Hc. unfold extract_matrix, extract_col. destruct (string_dec _ _); [done|]. unfold col_idx. destruct (index_some _ _ Hin) as (i & Ei). rewrite Ei. cbn [obind]. unfold select_cols.
    rewrite (mapM_singleton _ _ l) by (by apply index_lookup). cbn [obind]. unfold cell in Hc. rewrite Ei in Hc.
    rewrite (omapM_ok _ _ (map (fun x => [x]) c)).
    - cbn [obind]. unfold make_frame. rewrite decide_True by apply NoDup_singleton. cbn [obind f_rows]. apply omapM_ok. clear. induction c; constructor; done.
    - apply Forall2_fmap_r. eapply Forall2_impl; [exact Hc|]. cbn. intros r x E. unfold cells. by rewrite (mapM_singleton _ _ x).
  Qed.

  (** * Expressions of rows *)
  Definition names_ok (sc : list (string * list string)) (s : @st V) : Prop := forall f cs, assoc f sc = Some cs -> has_frame db s f = true /\ fetch_str (prefix s) f = f.
  Definition ext_rows (ext : tuple -> list V) (ts : list tuple) : list (list V) := map (fun t => flat t ++ ext t) ts.
  Record rows_in (sc : list (string * list string)) (names : list string) (ext : tuple -> list V) (ts : list tuple) (s : @st V) : Prop := mkRowsIn {
    ri_names : names_ok sc s;
    ri_scope : good_scope sc;
    ri_shape : Forall (shape sc) ts;
    ri_cur : cur s = mkFrame (sl sc ++ names) (ext_rows ext ts) }.
  Lemma ident_name_ok sc i (s : @st V) : good_scope sc -> names_ok sc s -> in_scope sc i -> visit_ident_name db i s = Ok (ident_text (fst i) (snd i)).
  Proof.
    intros Hg Hn (f & cs & Ef & _ & Ea & _). unfold visit_ident_name. rewrite Ef. destruct (Hn f cs Ea) as [-> ->]. destruct (good_assoc _ _ _ Hg Ea) as [Hne _]. destruct (string_dec f ""); done.
  Qed.
  Lemma scoped sc i : good_scope sc -> in_scope sc i -> exists f, fst i = Some f /\ identifier f /\ identifier (snd i).
  Proof. intros Hg (f & cs & Ef & Hi & Ea & _). exists f. split; [done|]. split; [by eapply good_assoc|done]. Qed.
  Lemma ident_behind sc i : good_scope sc -> in_scope sc i -> behind_dot (ident_text (fst i) (snd i)) <> "*".
  Proof. intros Hg Hi. destruct (scoped sc i Hg Hi) as (f & -> & [_ Hf] & [_ Hc]). cbn. rewrite behind_dot_app by done. by apply identifier_ne_star. Qed.
  Lemma ident_length sc i : good_scope sc -> in_scope sc i -> (String.length (ident_text (fst i) (snd i)) <? 2)%nat = false.
  Proof.
    intros Hg Hi. destruct (scoped sc i Hg Hi) as (f & -> & [Hf _] & _). apply Nat.ltb_ge. cbn. rewrite length_app. pose proof (length_ne f Hf). rewrite length_app. cbn. lia.
  Qed.
  Lemma ident_not_star sc i : good_scope sc -> in_scope sc i -> ident_text (fst i) (snd i) <> "*".
  Proof. intros Hg Hi E. pose proof (ident_length sc i Hg Hi) as H. by rewrite E in H. Qed.
  Lemma ident_no_star sc i : good_scope sc -> in_scope sc i -> ends_dot_star (ident_text (fst i) (snd i)) = false.
  Proof. intros Hg Hi. destruct (scoped sc i Hg Hi) as (f & -> & [_ Hf] & [_ Hc]). by apply ends_dot_star_ident. Qed.
  Lemma ident_last sc i : good_scope sc -> in_scope sc i -> ends_star (ident_text (fst i) (snd i)) = false.
  Proof.
    intros Hg Hi. destruct (scoped sc i Hg Hi) as (f & -> & _ & [Hn Hc]). unfold ends_star. apply bool_decide_eq_false. destruct (last_char_ids _ Hn Hc) as (d & E & Hd).
    cbn [ident_text]. rewrite (last_char_app' f _ d); [intros [= ->]; done|]. by apply (last_char_app' "."%string).
  Qed.
  Lemma rows_length sc names ext ts s : rows_in sc names ext ts s -> length (f_rows (cur s)) = length ts.
  Proof. intros H. rewrite (ri_cur _ _ _ _ _ H). cbn. unfold ext_rows. by rewrite map_length. Qed.
  (** the column of an identifier *)
  Lemma extract_ident sc names ext ts s i : rows_in sc names ext ts s -> in_scope sc i ->
    exists c, extract_matrix s (ident_text (fst i) (snd i)) = Ok c /\ Forall2 (fun t x => value_at t i = Some x) ts c.
  Proof.
    intros [Hn Hg Hs Hcur] Hi. destruct (forall2_exists (fun t x => value_at t i = Some x) ts) as (c & Hc).
    { intros t Ht. rewrite Forall_forall in Hs. destruct (flat_cell sc t i Hg (Hs t Ht) Hi) as (v & Hv & _). eauto. }
    exists c. split; [|done]. apply extract_matrix_ok; [by eapply ident_behind|rewrite Hcur; cbn; apply elem_of_app; left; by apply sl_in|].
    rewrite Hcur. cbn [f_labels f_rows]. apply Forall2_fmap_l. apply forall2_elem_r in Hc. eapply Forall2_impl; [exact Hc|]. cbn. intros t x (E & Ht & _).
    rewrite Forall_forall in Hs. destruct (flat_cell sc t i Hg (Hs t Ht) Hi) as (v & Hv & Hcell). rewrite E in Hv. injection Hv as <-. by apply cell_app_l.
  Qed.
  Lemma visit_row sc names ext ts s e : rows_in sc names ext ts s -> cg s = true -> grp s = false \/ agg s = true -> row_expr sc e ->
    exists v, visit O db e s = Ok (Some v, s) /\ denotes (fun t => ev O t e) ts v /\ (has_column e = true -> exists c, v = RCol c).
  Proof.
    intros HR Hcg Hga. induction e as [t v| |f c|e IH|f e IH|op a IHa b IHb|o IHo l IHl h IHh]; cbn [row_expr has_column]; intros He; try done.
    - cbn [visit]. rewrite Hcg. eexists. split; [done|]. split; [by intros ? _|done].
    - cbn [visit]. unfold visit_ident. change (ident_text f c) with (ident_text (fst (f, c)) (snd (f, c))).
      destruct (extract_ident _ _ _ _ _ (f, c) HR He) as (col & Ec & Hc). destruct HR as [Hn Hg Hs Hcur].
      replace (grp s && negb (agg s)) with false by (destruct Hga as [-> | ->]; [done|by rewrite andb_false_r]). cbn [andb]. rewrite Hcg. cbn [negb].
      destruct (string_dec _ _) as [E|_]; [by apply (ident_not_star sc (f, c)) in E|]. rewrite (ident_length sc (f, c)), (ident_no_star sc (f, c)) by done.
      rewrite (ident_name_ok sc (f, c)) by done. cbn [obind]. rewrite Ec. cbn [obind]. eexists. split; [done|]. split; [done|eauto].
    - cbn [visit]. auto.
    - destruct He as (Hop & Ha & Hb). cbn [visit]. destruct (IHa Ha) as (x & -> & Hx & Cx). cbn [obind snd fst]. destruct (IHb Hb) as (y & -> & Hy & Cy). cbn [obind snd fst]. rewrite Hcg. cbn [need obind].
      destruct (apply_op_ok op _ _ ts x y s (rows_length _ _ _ _ _ HR) Hop Hx Hy) as (v & -> & Hv & Cv). cbn [obind]. exists v. split; [done|]. split; [exact Hv|]. intros [H|H]%orb_true_iff; apply Cv; auto.
    - destruct He as (Ho & Hl & Hh). cbn [visit]. destruct (IHo Ho) as (x & -> & Hx & Cx). cbn [obind snd fst]. destruct (IHl Hl) as (y & -> & Hy & Cy). cbn [obind snd fst].
      destruct (IHh Hh) as (z & -> & Hz & Cz). cbn [obind snd fst]. rewrite Hcg. cbn [need obind].
      destruct (between_op_ok _ _ _ ts x y z Hx Hy Hz) as (v & -> & Hv & Cv). cbn [obind]. exists v. split; [done|]. split; [exact Hv|]. intros [[H|H]%orb_true_iff|H]%orb_true_iff; apply Cv; auto.
  Qed.
  (** the text of such an expression does not end with a star *)
  Lemma row_last sc (e : expr V) : good_scope sc -> row_expr sc e -> exists c, last_char (text e) = Some c /\ c <> "*"%char.
  Proof.
    intros Hg. induction e as [t v| |f c|e IH|f e IH|op a IHa b IHb|o IHo l IHl h IHh]; cbn [row_expr text]; intros He; try done.
    - destruct He as (p & c & -> & Hc). exists c. split; [apply last_char_app|done].
    - destruct (scoped sc (f, c) Hg He) as (g & Eg & _ & [Hn Hc]). cbn [fst snd] in *. subst f. destruct (last_char_ids _ Hn Hc) as (d & E & Hd). exists d. cbn [ident_text].
      split; [by do 2 apply last_char_app'|]. intros ->. done.
    - exists ")"%char. split; [|done]. apply last_char_app', last_char_app.
    - destruct He as (_ & _ & Hb). destruct (IHb Hb) as (c & E & Hc). exists c. split; [by do 2 apply last_char_app'|done].
    - destruct He as (_ & _ & Hb). destruct (IHh Hb) as (c & E & Hc). exists c. split; [by do 4 apply last_char_app'|done].
  Qed.
  Lemma row_text sc (e : expr V) : good_scope sc -> row_expr sc e -> ends_star (text e) = false.
  Proof. intros Hg He. destruct (row_last sc e Hg He) as (c & E & Hc). unfold ends_star. apply bool_decide_eq_false. rewrite E. congruence. Qed.
End visit.
