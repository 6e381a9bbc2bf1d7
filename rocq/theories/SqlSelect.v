(** Queries without GROUP BY: selected columns, aggregates of all rows and DISTINCT. *)
From stdpp Require Import base numbers sorting list list_numbers strings.
From Coq Require Import Ascii.
From Verif Require Import CppBase OrderSpec SqlSyntax SqlModel SqlSpec SqlSort SqlNames SqlRows SqlVisit SqlTables SqlQuery.
Local Open Scope string_scope.
Local Open Scope list_scope.

Section select.
  Context {V : Type} (O : ops V) (db : list (string * frame V)).
  Notation tuple := (@tuple V).
  (** * Columns of rows *)
  Definition item_label (i : item V) : string := match snd i with Some a => a | None => text (fst i) end.
  Lemma item_col {A} (F : A -> option V) ts (i : item V) (s s' : @st V) v : visit O db (fst i) s = Ok (Some v, s') -> cg s' = true -> length (f_rows (cur s')) = length ts \/ (exists c, v = RCol c) -> denotes F ts v ->
    exists f, visit_item O db i s = Ok (Some f, s') /\ f_labels f = [item_label i] /\ Forall2 (fun t r => match F t with Some v => Some [v] | None => None end = Some r) ts (f_rows f).
  Proof.
    intros E Hc Hl Hv. unfold visit_item. rewrite E. cbn [obind fst snd need]. rewrite Hc. cbn [negb need obind].
    assert (exists c, to_col s' v = Ok c /\ Forall2 (fun t x => F t = Some x) ts c) as (c & Ec & Hcol).
    { destruct Hl as [Hl|[c ->]]; [by apply to_col_ok|]. exists c. done. }
    exists (col_to_frame c (item_label i)). split; [|split; [done|by apply col_frame_rows]]. destruct v as [f|c'|x]; [done|..]; rewrite Ec; done.
  Qed.
  Lemma star_none sc (e : expr V) : row_expr sc e -> star_of e = None.
  Proof.
    destruct e as [| |[f|] c| | | |]; cbn; try done. intros (g & cs & _ & [_ Hc] & _). cbn in Hc. by destruct (decide (c = "*")) as [->|].
  Qed.
  Lemma row_item_ok q ts (s : @st V) i : rows_in db (scope db q) [] (fun _ => []) ts s -> NoDup (sl (scope db q)) -> cg s = true -> grp s = false -> agg s = false -> row_item (scope db q) i ->
    exists f, visit_item O db i s = Ok (Some f, s) /\ f_labels f = item_labels db q i /\ Forall2 (fun t r => item_values O t i = Some r) ts (f_rows f).
  Proof.
    intros HR Hn Hc Hg Ha Hi. unfold row_item in Hi. unfold item_labels, item_values. pose proof (rows_plain _ _ _ _ HR) as Hcur. destruct (star_of (fst i)) as [[f|]|] eqn:Es.
    - destruct i as [e name]. cbn [fst snd] in *. destruct e as [| |[g|] c| | | |]; try done. cbn in Es. destruct (decide (c = "*")) as [->|]; [|done]. injection Es as ->. destruct Hi as [cs Ha'].
      destruct HR as [Hnames Hgs Hsh _]. destruct (good_assoc _ _ _ Hgs Ha') as [Hne Hid]. destruct (extract_star f (scope db q) ts Hgs Hn Hsh) as [E|E]; [|congruence].
      unfold visit_item. cbn [fst snd visit]. unfold visit_ident. rewrite Hg. cbn [andb]. rewrite Hc. cbn [negb]. cbn [ident_text].
      destruct (string_dec _ _) as [E'|_].
      { exfalso. apply (f_equal String.length) in E'. rewrite !length_app in E'. cbn in E'. pose proof (length_ne f Hne). lia. }
      destruct (Nat.ltb_spec (String.length (f +++ "." +++ "*")) 2) as [Hlt|_]. { exfalso. rewrite !length_app in Hlt. cbn in Hlt. pose proof (length_ne f Hne). lia. }
      change (f +++ "." +++ "*") with (f +++ ".*"). rewrite ends_dot_star_star by done. unfold visit_ident_name. cbn [fst snd]. destruct (Hnames f cs Ha') as [-> ->]. destruct (string_dec f ""); [done|]. cbn [obind].
      rewrite Hcur. change (f +++ "." +++ "*") with (f +++ ".*"). rewrite E. cbn [obind fst snd]. rewrite Hc. cbn [negb need obind]. eexists. split; [done|]. split; [done|]. cbn [f_rows]. apply Forall2_fmap_r, Forall_Forall2_diag, Forall_true. done.
    - destruct i as [e name]. cbn [fst snd] in *. destruct e as [| |[g|] c| | | |]; try done; [|cbn in Es; by destruct (decide _)]. unfold visit_item. cbn [fst snd visit]. unfold visit_star. rewrite Hc. cbn [negb]. rewrite Hg, Ha. cbn [obind fst snd need].
      rewrite Hc. cbn [negb need obind]. eexists. split; [done|]. rewrite Hcur. split; [done|]. cbn [f_rows]. apply Forall2_fmap_r, Forall_Forall2_diag, Forall_true. done.
    - destruct (visit_row O db _ _ _ _ _ _ HR Hc (or_introl Hg) Hi) as (v & E & Hv & _). destruct (item_col _ ts i s s v E Hc (or_introl (rows_length _ _ _ _ _ _ HR)) Hv) as (f & Ef & El & Hr). exists f. done.
  Qed.

  (** * Aggregates of all rows *)
  Record total_in (sc : list (string * list string)) (p : list tuple) (s : @st V) : Prop := mkTotal {
    to_rows : rows_in db sc [] (fun _ => []) p s; to_cg : cg s = true; to_grp : grp s = false; to_agg : agg s = false; to_cname : cname s = [] }.
  Lemma total_ground sc p s l n : total_in sc p s -> total_in sc p (set_ground s l n).
  Proof. intros [H1 H2 H3 H4 H5]. constructor; try done. by eapply rows_in_same; [..|exact H1]. Qed.
  Lemma visit_total sc p e : total_expr sc e -> forall s, total_in sc p s ->
    exists v s', visit O db e s = Ok (Some v, s') /\ total_in sc p s' /\ denotes (fun g => ev_group O g e) [p] v /\ (has_agg e = true -> exists c, v = RCol c).
  Proof.
    induction e as [t v| |f c|e IH|f e IH|op a IHa b IHb|o IHo l IHl h IHh]; cbn [total_expr has_agg]; intros He s HT; try done.
    - cbn [visit]. rewrite (to_cg _ _ _ HT). eexists _, s. split; [done|]. split; [done|]. split; [by intros ? _|done].
    - cbn [visit]. auto.
    - destruct He as ([fn Hfn] & He & Hcol). cbn [visit]. set (s1 := set_ground s _ _). assert (total_in sc p s1) as HT1 by (by apply total_ground). clearbody s1. pose proof (to_rows _ _ _ HT1) as HR.
      rewrite (row_text sc) by (try done; apply HR). rewrite (to_grp _ _ _ HT1), (to_cg _ _ _ HT1). cbn [negb andb].
      destruct (visit_row O db _ _ _ _ _ _ HR (to_cg _ _ _ HT1) (or_introl (to_grp _ _ _ HT1)) He) as (v & -> & Hv & Hc). destruct (Hc Hcol) as (c & ->). cbn [obind need fst snd]. rewrite Hfn. cbn [need obind].
      eexists _, s1. split; [done|]. split; [done|]. split; [|eauto]. cbn [denotes] in Hv |- *. constructor; [|constructor]. cbn [ev_group]. rewrite Hfn. by rewrite (proj1 (forall2_mapM _ _ _) Hv).
    - destruct He as (Hop & Ha & Hb & Hand). cbn [visit]. destruct (IHa Ha s HT) as (x & s1 & -> & HT1 & Hx & Cx). cbn [obind snd fst]. destruct (IHb Hb s1 HT1) as (y & s2 & -> & HT2 & Hy & Cy). cbn [obind snd fst].
      rewrite (to_cg _ _ _ HT2). cbn [need obind].
      assert (exists v, apply_op O s2 op x y = Ok v /\ denotes (lift2 O op (fun g => ev_group O g a) (fun g => ev_group O g b)) [p] v /\ ((exists c, x = RCol c) \/ (exists c, y = RCol c) -> exists c, v = RCol c)) as (v & Ev & Hv & Cv).
      { destruct (ew_ok O op _ _ _ x y Hx Hy) as (v & Ev & Hv & Cv). exists v. split; [|done]. destruct op; try done; cbn [apply_op];
        (destruct Hand as [H1 H2]; [auto|]; destruct (Cx H1) as (cx & ->), (Cy H2) as (cy & ->); done). }
      rewrite Ev. cbn [obind]. exists v, s2. split; [done|]. split; [done|]. split; [exact Hv|]. intros [H|H]%orb_true_iff; apply Cv; auto.
    - destruct He as (Ho & Hl & Hh). cbn [visit]. destruct (IHo Ho s HT) as (x & s1 & -> & HT1 & Hx & Cx). cbn [obind snd fst]. destruct (IHl Hl s1 HT1) as (y & s2 & -> & HT2 & Hy & Cy). cbn [obind snd fst].
      destruct (IHh Hh s2 HT2) as (z & s3 & -> & HT3 & Hz & Cz). cbn [obind snd fst]. rewrite (to_cg _ _ _ HT3). cbn [need obind].
      destruct (between_op_ok O _ _ _ _ x y z Hx Hy Hz) as (v & -> & Hv & Cv). cbn [obind]. exists v, s3. split; [done|]. split; [done|]. split; [exact Hv|]. intros [[H|H]%orb_true_iff|H]%orb_true_iff; apply Cv; auto.
  Qed.

  (** * DISTINCT *)
  Context (W : weak_order (vlt O)).
  Lemma distinct_ok ls (rows : list (list V)) (s : @st V) : grp s = false -> cname s = [] -> cur s = mkFrame ls rows -> ls <> [] -> NoDup ls -> Forall (fun r => length r = length ls) rows ->
    exists rows', visit_distinct O s = Ok (mkFrame ls rows') /\ distinct_of (row_lt O) rows rows' /\ StronglySorted (fun r s => row_lt O r s = true) rows'.
  Proof.
    intros Hg Hc Hcur Hne Hn Hl. unfold visit_distinct. rewrite Hg, Hc, Hcur. unfold group_frame. cbn [map concat]. rewrite app_nil_r.
    assert (star_labels (mkFrame ls rows) [] "*" = ls) as ->. { unfold star_labels. destruct (string_dec "*" "*"); [|done]. apply filter_every. intros l _ H. by apply elem_of_nil in H. }
    assert (forall X (a b : X), match ls with [] => a | _ :: _ => b end = b) as Hm by (intros; by destruct ls). cbn zeta. rewrite !Hm. cbn [f_rows].
    rewrite (omapM_ok _ _ (seq 0 (length ls))).
    2: { apply Forall2_same_length_lookup. rewrite seq_length. split; [done|]. intros i l k Hi Hk. apply lookup_seq in Hk as [-> Hk]. unfold col_idx. cbn [f_labels]. by rewrite (index_nodup l ls i). }
    cbn [obind omapM]. destruct (distinct_rows O W (length ls) rows Hl) as (gs & -> & Hgs & Hd).
    assert (exists rs, Forall2 (fun g r => head g = Some r /\ length r = length ls) gs rs) as (rs & Hrs).
    { apply forall2_exists. intros g Hg'. rewrite Forall_forall in Hgs. destruct (Hgs g Hg') as (x & g' & -> & Hx). exists x. done. }
    rewrite ?Hm, (omapM_ok _ _ rs).
    - cbn [obind zip_with]. rewrite app_nil_r. unfold make_frame. rewrite decide_True by done. exists rs. split; [done|]. apply Hd. eapply Forall2_impl; [exact Hrs|]. by intros g r [? _].
    - eapply Forall2_impl; [exact Hrs|]. intros g r [Hh Hr]. unfold group_row. destruct g as [|x g]; [done|]. injection Hh as ->. unfold cells. assert (mapM (fun i => r !! i) (seq 0 (length ls)) = Some r) as ->.
      { apply forall2_mapM. apply Forall2_same_length_lookup. rewrite seq_length. split; [done|]. intros i k v Hk Hv. by apply lookup_seq in Hk as [-> _]. }
      cbn [obind omapM zip_with]. by rewrite app_nil_r.
  Qed.
End select.
