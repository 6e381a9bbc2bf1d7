(** C70: theta join and Cartesian product of frames. *)
From stdpp Require Import base numbers sorting list list_numbers.
From Coq Require Import Lia.
From Verif Require Import CppBase ThetaModel.
Local Open Scope nat_scope.

(** * Specification *)
Section Spec.
  Context {V L : Type} (cmpv : vt -> cmp -> V -> V -> bool) (conv : vt -> vt -> V -> V).
  Definition cell (f : frame V L) (r c : nat) : option V := f_cols f !! c ≫= fun k => c_cells k !! r.
  (** Labels are unique and every column has the rows of the frame. *)
  Definition valid (f : frame V L) : Prop := NoDup (map c_label (f_cols f)) /\ forall c, c ∈ f_cols f -> length (c_cells c) = f_rows f.
  (** one condition [(l, r, c)] on a row [i] of the left and a row [j] of the right frame: the value of the right column is converted to the type of the left one, if it has another type *)
  Definition meets (lhs rhs : frame V L) (i j : nat) (on : L * L * cmp) : Prop :=
    exists cl cr a b, cl ∈ f_cols lhs /\ c_label cl = fst (fst on) /\ cr ∈ f_cols rhs /\ c_label cr = snd (fst on) /\ c_cells cl !! i = Some a /\ c_cells cr !! j = Some b /\
      ((c_ty cl = c_ty cr /\ cmpv (c_ty cl) (snd on) a b = true) \/ (c_ty cl <> c_ty cr /\ cmpv (c_ty cl) (snd on) a (conv (c_ty cr) (c_ty cl) b) = true)).
  Definition before (p q : nat * nat) : Prop := p.1 < q.1 \/ p.1 = q.1 /\ p.2 < q.2.
  (** [res] has the columns of both frames, and its rows are the pairs [ps] of rows. *)
  Definition rows_of (lhs rhs res : frame V L) (ps : list (nat * nat)) : Prop :=
    f_rows res = length ps /\ map c_ty (f_cols res) = map c_ty (f_cols lhs) ++ map c_ty (f_cols rhs) /\ map c_label (f_cols res) = map c_label (f_cols lhs) ++ map c_label (f_cols rhs) /\
    (forall c, c ∈ f_cols res -> length (c_cells c) = f_rows res) /\
    forall k i j, ps !! k = Some (i, j) ->
      (forall c, c < length (f_cols lhs) -> cell res k c = cell lhs i c) /\ (forall c, c < length (f_cols rhs) -> cell res k (length (f_cols lhs) + c) = cell rhs j c).
End Spec.

(** * Proofs *)
Definition all_pairs (n m : nat) : list (nat * nat) := i ← seq 0 n; map (fun j => (i, j)) (seq 0 m).
Lemma all_pairs_S n m : all_pairs (S n) m = all_pairs n m ++ map (fun j => (n, j)) (seq 0 m).
Proof. unfold all_pairs. rewrite seq_S, bind_app. cbn. by rewrite app_nil_r. Qed.
Lemma all_pairs_length n m : length (all_pairs n m) = n * m.
Proof. induction n as [|n IH]; [done|]. rewrite all_pairs_S, app_length, IH, map_length, seq_length. lia. Qed.
Lemma all_pairs_in n m i j : (i, j) ∈ all_pairs n m <-> i < n /\ j < m.
Proof.
  unfold all_pairs. rewrite elem_of_list_bind. split.
  - intros (k & Hk & [_ Hi]%elem_of_seq). apply elem_of_list_fmap in Hk as (j' & [= -> ->] & [_ Hj]%elem_of_seq). lia.
  - intros [Hi Hj]. exists i. split; [apply elem_of_list_fmap; exists j; split; [done|]; apply elem_of_seq; lia|apply elem_of_seq; lia].
Qed.
Lemma sorted_app {A} (R : A -> A -> Prop) l k : StronglySorted R l -> StronglySorted R k -> (forall x y, x ∈ l -> y ∈ k -> R x y) -> StronglySorted R (l ++ k).
Proof.
  induction 1 as [|x l Hl IH Hx]; intros Hk H; [done|]. cbn. constructor; [apply IH; [done|]; intros; apply H; [by right|done]|]. apply Forall_app. split; [done|]. apply Forall_forall. intros y Hy. apply H; [left|done].
Qed.
Lemma all_pairs_sorted n m : StronglySorted before (all_pairs n m).
Proof.
  induction n as [|n IH]; [constructor|]. rewrite all_pairs_S. apply sorted_app; [done| |].
  - clear IH. assert (forall lo, StronglySorted before (map (fun j => (n, j)) (seq lo m))) as H; [|apply H]. induction m as [|m IHm]; intros lo; cbn; [constructor|]. constructor; [apply IHm|]. apply Forall_forall. intros p (j & -> & Hj%elem_of_seq)%elem_of_list_fmap. right. cbn. lia.
  - intros [i j] p H1 (j' & -> & _)%elem_of_list_fmap. apply all_pairs_in in H1. left. cbn. lia.
Qed.
Lemma sorted_filter {A} (R : A -> A -> Prop) (P : A -> Prop) `{!forall x, Decision (P x)} (l : list A) : StronglySorted R l -> StronglySorted R (filter P l).
Proof.
  induction 1 as [|x l Hl IH Hx]; [constructor|]. rewrite filter_cons. destruct (decide (P x)); [|done]. constructor; [done|]. rewrite Forall_forall in Hx |- *. intros y [_ Hy]%elem_of_list_filter. auto.
Qed.
Lemma filter_len {A} (P : A -> Prop) `{!forall x, Decision (P x)} (l : list A) : length (filter P l) <= length l.
Proof. induction l as [|x l IH]; [done|]. rewrite filter_cons. destruct (decide (P x)); cbn; lia. Qed.
Lemma take_snoc {A} (l : list A) n x : l !! n = Some x -> take (S n) l = take n l ++ [x].
Proof. intros H. by apply take_S_r. Qed.
Lemma insert_take {A} (l : list A) n x : n < length l -> take (S n) (<[n := x]> l) = take n l ++ [x].
Proof. intros H. rewrite (take_S_r _ _ x) by (by apply list_lookup_insert). f_equal. apply take_insert. lia. Qed.

Section Proofs.
  Context {V L : Type} `{EqDecision L} (cmpv : vt -> cmp -> V -> V -> bool) (conv : vt -> vt -> V -> V).
  Implicit Types (f lhs rhs : frame V L).
  (** the pair of rows meets the comparison of the two columns *)
  Definition okp (cl cr : col V L) (c : cmp) (p : nat * nat) : bool :=
    match c_cells cl !! p.1, c_cells cr !! p.2 with Some a, Some b => compare_values cmpv conv (c_ty cl) (c_ty cr) a b c | _, _ => false end.
  Definition stored (ps : list (nat * nat)) (N : nat) (p : positions) : Prop := p_size p = length ps /\ take (length ps) (p_mem p) = ps /\ length (p_mem p) = N /\ p_read p = 0 /\ p_write p = 0 /\ length ps <= N.
  Section cols.
    Context (lhs rhs : frame V L) (cl cr : col V L) (c : cmp).
    Context (Hcl : length (c_cells cl) = f_rows lhs) (Hcr : length (c_cells cr) = f_rows rhs).
    Lemma compare_pair_ok i j p : i < f_rows lhs -> j < f_rows rhs ->
      compare_pair cmpv conv (c_ty cl) (c_ty cr) (c_cells cl) (c_cells cr) c i j p = if okp cl cr c (i, j) then add_pos p i j else Ok p.
    Proof.
      intros Hi Hj. unfold compare_pair, okp. cbn. destruct (rd_lt (c_cells cl) i) as (a & Ha & ->); [lia|]. destruct (rd_lt (c_cells cr) j) as (b & Hb & ->); [lia|]. cbn. by rewrite Ha, Hb.
    Qed.
    (** positions written so far by the first equation *)
    Definition first (done : list (nat * nat)) (N : nat) (p : positions) : Prop :=
      p_read p = 0 /\ p_write p = length (filter (fun x => okp cl cr c x = true) done) /\ take (p_write p) (p_mem p) = filter (fun x => okp cl cr c x = true) done /\ length (p_mem p) = N /\ p_size p = 0.
    Lemma first_step todo N p i j : length todo < N -> i < f_rows lhs -> j < f_rows rhs -> first todo N p ->
      exists p', compare_pair cmpv conv (c_ty cl) (c_ty cr) (c_cells cl) (c_cells cr) c i j p = Ok p' /\ first (todo ++ [(i, j)]) N p'.
    Proof.
      intros HN Hi Hj (H1 & H2 & H3 & H4 & H5). rewrite compare_pair_ok by done. unfold first. rewrite filter_app, filter_cons, filter_nil. destruct (okp cl cr c (i, j)) eqn:E.
      - unfold add_pos. pose proof (filter_len (fun x => okp cl cr c x = true) todo). rewrite decide_True by lia. eexists. split; [done|]. cbn. rewrite decide_True by done. rewrite app_length, insert_length. cbn.
        split; [done|]. split; [lia|]. split; [|done]. rewrite Nat.add_1_r, insert_take, H3 by lia. done.
      - exists p. split; [done|]. rewrite decide_False by done. rewrite app_nil_r. done.
    Qed.
    Lemma first_ok junk : length junk = f_rows lhs * f_rows rhs ->
      exists p, for_up 0 (f_rows lhs) (fun l p => for_up 0 (f_rows rhs) (fun r p => compare_pair cmpv conv (c_ty cl) (c_ty cr) (c_cells cl) (c_cells cr) c l r p) p) (mkPos junk 0 0 0) = Ok p /\
        stored (filter (fun x => okp cl cr c x = true) (all_pairs (f_rows lhs) (f_rows rhs))) (f_rows lhs * f_rows rhs) (finalize p).
    Proof.
      intros Hj. destruct (for_up_inv (fun i p => first (all_pairs i (f_rows rhs)) (length junk) p) 0 (f_rows lhs) (fun l p => for_up 0 (f_rows rhs) (fun r p => compare_pair cmpv conv (c_ty cl) (c_ty cr) (c_cells cl) (c_cells cr) c l r p) p) (mkPos junk 0 0 0)) as (p & E & HP).
      - lia.
      - done.
      - intros i p Hi HP. destruct (for_up_inv (fun j p => first (all_pairs i (f_rows rhs) ++ map (fun j => (i, j)) (seq 0 j)) (length junk) p) 0 (f_rows rhs) (fun r p => compare_pair cmpv conv (c_ty cl) (c_ty cr) (c_cells cl) (c_cells cr) c i r p) p) as (p' & E & HP').
        + lia.
        + cbn. by rewrite app_nil_r.
        + intros j p1 Hj1 HP1. destruct (first_step (all_pairs i (f_rows rhs) ++ map (fun j => (i, j)) (seq 0 j)) (length junk) p1 i j) as (p2 & E2 & HP2); [|lia|lia|exact HP1|].
          * rewrite app_length, all_pairs_length, map_length, seq_length, Hj. assert (S i * f_rows rhs <= f_rows lhs * f_rows rhs) by (apply Nat.mul_le_mono_r; lia). cbn in *. lia.
          * exists p2. split; [done|]. change (1 + j) with (S j). rewrite seq_S, map_app, app_assoc. done.
        + exists p'. split; [done|]. change (1 + i) with (S i). by rewrite all_pairs_S.
      - exists p. split; [done|]. destruct HP as (H1 & H2 & H3 & H4 & H5). unfold stored, finalize. cbn. rewrite <- H2 at 2. rewrite <- Hj. split; [done|]. split; [done|]. split; [done|]. split; [done|]. split; [done|]. rewrite Hj, <- (all_pairs_length (f_rows lhs)). apply filter_len.
    Qed.
    Lemma next_ok ps N p : stored ps N p -> (forall x, x ∈ ps -> x.1 < f_rows lhs /\ x.2 < f_rows rhs) ->
      exists p', for_up 0 (p_size p) (fun _ p => let* x := read_next p in compare_pair cmpv conv (c_ty cl) (c_ty cr) (c_cells cl) (c_cells cr) c (fst (fst x)) (snd (fst x)) (snd x)) p = Ok p' /\
        stored (filter (fun x => okp cl cr c x = true) ps) N (finalize p').
    Proof.
      intros (H1 & H2 & H3 & H4 & H5 & H6) Hin.
      destruct (for_up_inv (fun i p' => p_read p' = i /\ p_write p' = length (filter (fun x => okp cl cr c x = true) (take i ps)) /\ take (p_write p') (p_mem p') = filter (fun x => okp cl cr c x = true) (take i ps) /\
          length (p_mem p') = N /\ forall j, i <= j -> j < length ps -> p_mem p' !! j = ps !! j) 0 (p_size p)
          (fun _ p => let* x := read_next p in compare_pair cmpv conv (c_ty cl) (c_ty cr) (c_cells cl) (c_cells cr) c (fst (fst x)) (snd (fst x)) (snd x)) p) as (p' & E & Hr & Hw & Ht & Hl & _).
      - lia.
      - rewrite H4, H5. split; [done|]. split; [done|]. split; [done|]. split; [done|]. intros j _ Hj. rewrite <- H2. by rewrite lookup_take.
      - intros i p' Hi (Hr & Hw & Ht & Hl & Hm). rewrite H1 in Hi. unfold read_next. rewrite Hr, Hm by lia. destruct (lookup_lt_is_Some_2 ps i) as [x Hx]; [lia|]. rewrite Hx. cbn [obind fst snd].
        destruct (Hin x) as [Hx1 Hx2]; [by eapply elem_of_list_lookup_2|]. rewrite compare_pair_ok by done. change (1 + i) with (S i); rewrite (take_snoc ps i x Hx), filter_app, filter_cons, filter_nil.
        pose proof (filter_len (fun x => okp cl cr c x = true) (take i ps)) as Hle. rewrite take_length in Hle. destruct x as [a b]. cbn [fst snd]. destruct (okp cl cr c (a, b)) eqn:Eo.
        + unfold add_pos. cbn [p_write p_mem p_read p_size]. rewrite decide_True by lia. eexists. split; [done|]. cbn. rewrite decide_True by done. rewrite insert_length, app_length. cbn. split; [lia|]. split; [lia|]. split; [rewrite Nat.add_1_r, insert_take, Ht by lia; done|]. split; [done|].
          intros j Hj1 Hj2. rewrite list_lookup_insert_ne by lia. apply Hm; lia.
        + eexists. split; [done|]. cbn. rewrite decide_False by done. rewrite app_nil_r. split; [lia|]. split; [done|]. split; [done|]. split; [done|]. intros j Hj1 Hj2. apply Hm; lia.
      - exists p'. split; [done|]. rewrite H1 in Hw, Ht. rewrite firstn_all in Hw, Ht. unfold stored, finalize. cbn. rewrite <- Hw at 2. split; [done|]. split; [done|]. split; [done|]. split; [done|]. split; [done|]. pose proof (filter_len (fun x => okp cl cr c x = true) ps). lia.
    Qed.
  End cols.

  (** ** all conditions *)
  Definition eq_ok (lhs rhs : frame V L) (e : equation) (x : nat * nat) : bool :=
    match f_cols lhs !! e_lhs e, f_cols rhs !! e_rhs e with Some cl, Some cr => okp cl cr (e_cmp e) x | _, _ => false end.
  Definition eq_wf (lhs rhs : frame V L) (e : equation) : Prop :=
    exists cl cr, f_cols lhs !! e_lhs e = Some cl /\ f_cols rhs !! e_rhs e = Some cr /\ deducible (c_ty cl) = true /\ deducible (c_ty cr) = true.
  Lemma compare_all_next lhs rhs junk es : valid lhs -> valid rhs -> Forall (eq_wf lhs rhs) es -> forall ps N p, stored ps N p -> (forall x, x ∈ ps -> x.1 < f_rows lhs /\ x.2 < f_rows rhs) ->
    exists p', compare_all cmpv conv junk lhs rhs es (Some p) = Ok (Some p') /\ stored (filter (fun x => Forall (fun e => eq_ok lhs rhs e x = true) es) ps) N p'.
  Proof.
    intros [_ Hvl] [_ Hvr]. induction es as [|e es IH]; intros Hes ps N p Hst Hin.
    - exists p. split; [done|]. replace (filter _ ps) with ps; [done|]. clear. induction ps as [|x ps IH]; [done|]. rewrite filter_cons, decide_True by constructor. by f_equal.
    - inversion Hes as [|? ? (cl & cr & Hcl & Hcr & Hdl & Hdr) Hes']; subst. cbn [compare_all]. unfold compare_columns. rewrite (rd_Ok _ _ _ Hcl), (rd_Ok _ _ _ Hcr). cbn [obind]. rewrite Hdl, Hdr. cbn [negb orb].
      destruct (next_ok lhs rhs cl cr (e_cmp e)) with (3 := Hst) (4 := Hin) as (p1 & -> & H1); [apply Hvl; by eapply elem_of_list_lookup_2|apply Hvr; by eapply elem_of_list_lookup_2|]. cbn [obind].
      destruct (IH Hes' _ _ _ H1) as (p2 & E2 & H2); [intros x [_ Hx]%elem_of_list_filter; auto|]. exists p2. split; [done|]. rewrite list_filter_filter in H2. erewrite list_filter_iff; [exact H2|]. intros x. cbn. rewrite Forall_cons. unfold eq_ok at 1. rewrite Hcl, Hcr. tauto.
  Qed.
  Lemma compare_all_ok lhs rhs junk es : valid lhs -> valid rhs -> Forall (eq_wf lhs rhs) es -> es <> [] -> length junk = f_rows lhs * f_rows rhs ->
    exists p, compare_all cmpv conv junk lhs rhs es None = Ok (Some p) /\ stored (filter (fun x => Forall (fun e => eq_ok lhs rhs e x = true) es) (all_pairs (f_rows lhs) (f_rows rhs))) (f_rows lhs * f_rows rhs) p.
  Proof.
    intros Hl Hr Hes Hne Hj. destruct es as [|e es]; [done|]. inversion Hes as [|? ? (cl & cr & Hcl & Hcr & Hdl & Hdr) Hes']; subst. cbn [compare_all]. unfold compare_columns. rewrite (rd_Ok _ _ _ Hcl), (rd_Ok _ _ _ Hcr). cbn [obind]. rewrite Hdl, Hdr. cbn [negb orb].
    destruct (first_ok lhs rhs cl cr (e_cmp e)) with (3 := Hj) as (p1 & -> & H1); [apply Hl; by eapply elem_of_list_lookup_2|apply Hr; by eapply elem_of_list_lookup_2|]. cbn [obind].
    destruct (compare_all_next lhs rhs junk es Hl Hr Hes' _ _ _ H1) as (p2 & E2 & H2); [intros [i j] [_ Hx]%elem_of_list_filter; by apply all_pairs_in in Hx|]. exists p2. split; [done|]. rewrite list_filter_filter in H2. erewrite list_filter_iff; [exact H2|]. intros x. cbn. rewrite Forall_cons. unfold eq_ok at 1. rewrite Hcl, Hcr. tauto.
  Qed.
  (** ** names *)
  Lemma col_idx_ok f l : (exists c, c ∈ f_cols f /\ c_label c = l) -> exists i c, col_idx f l = Ok i /\ f_cols f !! i = Some c /\ c_label c = l.
  Proof.
    intros (c & Hc & Hl). unfold col_idx. destruct (list_find _ (f_cols f)) as [[i d]|] eqn:E; [apply list_find_Some in E as (H1 & H2 & _); eauto|]. apply list_find_None in E. rewrite Forall_forall in E. by destruct (E c Hc).
  Qed.
  Lemma col_idx_throw f l : l ∉ map c_label (f_cols f) -> col_idx f l = Throw.
  Proof.
    intros H. unfold col_idx. destruct (list_find _ (f_cols f)) as [[i d]|] eqn:E; [|done]. apply list_find_Some in E as (H1 & H2 & _). destruct H. apply elem_of_list_fmap. exists d. split; [done|]. by eapply elem_of_list_lookup_2.
  Qed.
  Definition named lhs rhs (o : L * L * cmp) : Prop := (exists c, c ∈ f_cols lhs /\ c_label c = o.1.1) /\ (exists c, c ∈ f_cols rhs /\ c_label c = o.1.2).
  Definition names (lhs rhs : frame V L) (o : L * L * cmp) (e : equation) : Prop :=
    exists cl cr, f_cols lhs !! e_lhs e = Some cl /\ c_label cl = o.1.1 /\ f_cols rhs !! e_rhs e = Some cr /\ c_label cr = o.1.2 /\ e_cmp e = o.2.
  Lemma equations_ok lhs rhs on : Forall (named lhs rhs) on -> exists es, equations lhs rhs on = Ok es /\ Forall2 (names lhs rhs) on es.
  Proof.
    induction 1 as [|[[l r] c] on [H1 H2] _ (es & E & IH)]; [by exists []|]. cbn [equations]. destruct (col_idx_ok _ _ H1) as (i & cl & Ei & Hi & Hl). destruct (col_idx_ok _ _ H2) as (j & cr & Ej & Hj & Hr). cbn in *. rewrite Ei, Ej, E. cbn. eexists. split; [done|]. constructor; [|done]. exists cl, cr. done.
  Qed.
  Lemma by_label f c d : valid f -> c ∈ f_cols f -> d ∈ f_cols f -> c_label c = c_label d -> c = d.
  Proof.
    intros [Hn _] [i Hi]%elem_of_list_lookup [j Hj]%elem_of_list_lookup E. assert (i = j) as ->; [|congruence]. eapply NoDup_lookup; [exact Hn| |]; apply list_lookup_fmap_Some; eauto.
  Qed.
  Lemma meets_iff lhs rhs o e i j : valid lhs -> valid rhs -> names lhs rhs o e -> meets cmpv conv lhs rhs i j o <-> eq_ok lhs rhs e (i, j) = true.
  Proof.
    intros Hl Hr (cl & cr & H1 & H2 & H3 & H4 & H5). unfold eq_ok. rewrite H1, H3. unfold okp, compare_values. cbn. pose proof (elem_of_list_lookup_2 _ _ _ H1) as Hcl. pose proof (elem_of_list_lookup_2 _ _ _ H3) as Hcr. split.
    - intros (cl' & cr' & a & b & A1 & A2 & A3 & A4 & A5 & A6 & A7). assert (cl' = cl) as -> by (apply (by_label lhs); try done; congruence). assert (cr' = cr) as -> by (apply (by_label rhs); try done; congruence). rewrite A5, A6, H5. destruct (decide _), A7 as [[]|[]]; done.
    - destruct (c_cells cl !! i) as [a|] eqn:E1; [|done]. destruct (c_cells cr !! j) as [b|] eqn:E2; [|done]. intros Hc. exists cl, cr, a, b. split; [done|]. split; [done|]. split; [done|]. split; [done|]. split; [done|]. split; [done|]. rewrite H5 in Hc. destruct (decide _); [left|right]; done.
  Qed.
  (** ** the result *)
  Lemma write_column_ok p ps N side (inc outc : col V L) : stored ps N p -> deducible (c_ty inc) = true -> (forall x, x ∈ ps -> side x < length (c_cells inc)) -> length (c_cells outc) = length ps ->
    exists c, write_column p side inc outc = Ok c /\ c_ty c = c_ty outc /\ c_label c = c_label outc /\ length (c_cells c) = length ps /\ forall k x, ps !! k = Some x -> c_cells c !! k = c_cells inc !! side x.
  Proof.
    intros (H1 & H2 & H3 & _ & _ & H4) Hd Hs Ho. unfold write_column. rewrite Hd. cbn [negb].
    destruct (for_up_inv (fun i out => length out = length ps /\ forall k x, k < i -> ps !! k = Some x -> out !! k = c_cells inc !! side x) 0 (p_size p)
      (fun i out => match p_mem p !! i with Some x => let* v := rd (c_cells inc) (side x) in wr out i v | None => Throw end) (c_cells outc)) as (cs & -> & Hl & Hc).
    - lia.
    - split; [done|]. intros; lia.
    - intros i out Hi [Hl Hc]. rewrite H1 in Hi. assert (p_mem p !! i = ps !! i) as -> by (rewrite <- H2; by rewrite lookup_take by lia). destruct (lookup_lt_is_Some_2 ps i) as [x Hx]; [lia|]. rewrite Hx.
      destruct (rd_lt (c_cells inc) (side x)) as (v & Hv & ->); [apply Hs; by eapply elem_of_list_lookup_2|]. cbn [obind]. rewrite wr_Ok by lia. eexists. split; [done|]. rewrite insert_length. split; [done|]. intros k y Hk Hy. destruct (decide (k = i)) as [->|Hne].
      + rewrite list_lookup_insert by lia. congruence.
      + rewrite list_lookup_insert_ne by done. apply Hc; [lia|done].
    - cbn [obind]. eexists. split; [done|]. cbn. split; [done|]. split; [done|]. split; [done|]. intros k x Hk. apply Hc; [|done]. rewrite H1. by eapply lookup_lt_Some.
  Qed.
  Lemma write_columns_ok p ps N side : stored ps N p -> forall (ins outs : list (col V L)), length ins = length outs -> (forall c, c ∈ ins -> deducible (c_ty c) = true) -> (forall c x, c ∈ ins -> x ∈ ps -> side x < length (c_cells c)) -> (forall c, c ∈ outs -> length (c_cells c) = length ps) ->
    exists cs, write_columns p side ins outs = Ok cs /\ map c_ty cs = map c_ty outs /\ map c_label cs = map c_label outs /\ Forall2 (fun (i c : col V L) => length (c_cells c) = length ps /\ forall k x, ps !! k = Some x -> c_cells c !! k = c_cells i !! side x) ins cs.
  Proof.
    intros Hst. induction ins as [|i ins IH]; intros [|o outs] Hlen Hd Hs Ho; try done; [by exists []|]. cbn [write_columns].
    destruct (write_column_ok p ps N side i o Hst) as (c & -> & A1 & A2 & A3 & A4); [apply Hd; left|intros x Hx; apply Hs; [left|done]|apply Ho; left|]. cbn [obind].
    destruct (IH outs) as (cs & -> & B1 & B2 & B3); [by injection Hlen|intros; apply Hd; by right|intros; apply Hs; [by right|done]|intros; apply Ho; by right|]. cbn [obind]. eexists. split; [done|]. cbn. split; [congruence|]. split; [congruence|]. by constructor.
  Qed.
  Lemma zip_types (ts : list vt) (ls : list L) (j : nat -> list V) : length ts = length ls ->
    map c_ty (imap (fun i tl => mkCol (fst tl) (snd tl) (j i)) (zip ts ls)) = ts /\ map c_label (imap (fun i tl => mkCol (fst tl) (snd tl) (j i)) (zip ts ls)) = ls.
  Proof.
    revert j ls. induction ts as [|t ts IH]; intros j [|l ls] H; try done. cbn. injection H as H. destruct (IH (j ∘ S) ls H) as [A B]. split; f_equal; [exact A|exact B].
  Qed.
  (** ** errors *)
  Lemma equations_throw lhs rhs on : ~ Forall (named lhs rhs) on -> equations lhs rhs on = Throw.
  Proof.
    induction on as [|[[l r] c] on IH]; intros H; [by destruct H|]. cbn [equations].
    destruct (decide (l ∈ map c_label (f_cols lhs))) as [Hl|Hl]; [|by rewrite col_idx_throw]. destruct (decide (r ∈ map c_label (f_cols rhs))) as [Hr|Hr].
    - rewrite IH; [|intros H'; destruct H; constructor; [|done]; split; [apply elem_of_list_fmap in Hl as (d & -> & Hd); by exists d|apply elem_of_list_fmap in Hr as (d & -> & Hd); by exists d]]. unfold col_idx. by destruct (list_find _ (f_cols lhs)) as [[]|], (list_find _ (f_cols rhs)) as [[]|].
    - rewrite (col_idx_throw rhs) by done. unfold col_idx. by destruct (list_find _ (f_cols lhs)) as [[]|].
  Qed.
  Definition in_frames (lhs rhs : frame V L) (e : equation) : Prop := is_Some (f_cols lhs !! e_lhs e) /\ is_Some (f_cols rhs !! e_rhs e).
  Lemma eq_wf_dec lhs rhs e : in_frames lhs rhs e -> eq_wf lhs rhs e \/ exists cl cr, f_cols lhs !! e_lhs e = Some cl /\ f_cols rhs !! e_rhs e = Some cr /\ negb (deducible (c_ty cl)) || negb (deducible (c_ty cr)) = true.
  Proof. intros [[cl Hl] [cr Hr]]. unfold eq_wf. destruct (deducible (c_ty cl)) eqn:E1, (deducible (c_ty cr)) eqn:E2; [left; by exists cl, cr|right; exists cl, cr; by rewrite E1, E2..]. Qed.
  Lemma compare_all_next_throw lhs rhs junk es : valid lhs -> valid rhs -> Forall (in_frames lhs rhs) es -> ~ Forall (eq_wf lhs rhs) es -> forall ps N p, stored ps N p -> (forall x, x ∈ ps -> x.1 < f_rows lhs /\ x.2 < f_rows rhs) ->
    compare_all cmpv conv junk lhs rhs es (Some p) = Throw.
  Proof.
    intros Hvl Hvr. induction es as [|e es IH]; intros Hf Hn ps N p Hst Hin; [by destruct Hn|]. inversion Hf as [|? ? He Hf']; subst. cbn [compare_all]. unfold compare_columns. destruct (eq_wf_dec _ _ _ He) as [Hw|(cl & cr & Hcl & Hcr & Hd)].
    - pose proof Hw as (cl & cr & Hcl & Hcr & Hdl & Hdr). rewrite (rd_Ok _ _ _ Hcl), (rd_Ok _ _ _ Hcr). cbn [obind]. rewrite Hdl, Hdr. cbn [negb orb].
      destruct (next_ok lhs rhs cl cr (e_cmp e)) with (3 := Hst) (4 := Hin) as (p1 & -> & H1); [apply Hvl; by eapply elem_of_list_lookup_2|apply Hvr; by eapply elem_of_list_lookup_2|]. cbn [obind].
      eapply IH; [done|intros H; destruct Hn; by constructor|exact H1|]. intros x [_ Hx]%elem_of_list_filter. auto.
    - rewrite (rd_Ok _ _ _ Hcl), (rd_Ok _ _ _ Hcr). cbn [obind]. by rewrite Hd.
  Qed.
  Lemma compare_all_throw lhs rhs junk es : valid lhs -> valid rhs -> Forall (in_frames lhs rhs) es -> ~ Forall (eq_wf lhs rhs) es -> length junk = f_rows lhs * f_rows rhs -> compare_all cmpv conv junk lhs rhs es None = Throw.
  Proof.
    intros Hvl Hvr Hf Hn Hj. destruct es as [|e es]; [by destruct Hn|]. inversion Hf as [|? ? He Hf']; subst. cbn [compare_all]. unfold compare_columns. destruct (eq_wf_dec _ _ _ He) as [Hw|(cl & cr & Hcl & Hcr & Hd)].
    - pose proof Hw as (cl & cr & Hcl & Hcr & Hdl & Hdr). rewrite (rd_Ok _ _ _ Hcl), (rd_Ok _ _ _ Hcr). cbn [obind]. rewrite Hdl, Hdr. cbn [negb orb].
      destruct (first_ok lhs rhs cl cr (e_cmp e)) with (3 := Hj) as (p1 & -> & H1); [apply Hvl; by eapply elem_of_list_lookup_2|apply Hvr; by eapply elem_of_list_lookup_2|]. cbn [obind].
      eapply compare_all_next_throw; [done|done|done|intros H; destruct Hn; by constructor|exact H1|]. intros [i j] [_ Hx]%elem_of_list_filter. by apply all_pairs_in in Hx.
    - rewrite (rd_Ok _ _ _ Hcl), (rd_Ok _ _ _ Hcr). cbn [obind]. by rewrite Hd.
  Qed.
  Lemma write_columns_throw p ps N side : stored ps N p -> forall (ins outs : list (col V L)), length ins = length outs -> (exists c, c ∈ ins /\ deducible (c_ty c) = false) -> (forall c x, c ∈ ins -> x ∈ ps -> side x < length (c_cells c)) -> (forall c, c ∈ outs -> length (c_cells c) = length ps) ->
    write_columns p side ins outs = Throw.
  Proof.
    intros Hst. induction ins as [|i ins IH]; intros [|o outs] Hlen (c & Hc & Hd) Hs Ho; try done; [by apply elem_of_nil in Hc|]. cbn [write_columns]. destruct (deducible (c_ty i)) eqn:Ei.
    - destruct (write_column_ok p ps N side i o Hst) as (c' & -> & _); [done|intros x Hx; apply Hs; [left|done]|apply Ho; left|]. cbn [obind]. rewrite IH; [done|by injection Hlen| |intros; apply Hs; [by right|done]|intros; apply Ho; by right].
      exists c. split; [|done]. apply elem_of_cons in Hc as [->|Hc]; [congruence|done].
    - unfold write_column. by rewrite Ei.
  Qed.
  Lemma names_in lhs rhs o e : names lhs rhs o e -> in_frames lhs rhs e.
  Proof. intros (cl & cr & H1 & _ & H3 & _). split; eauto. Qed.
End Proofs.

(** * Theorems *)
Section Theorems.
  Context {V L : Type} `{EqDecision L} (cmpv : vt -> cmp -> V -> V -> bool) (conv : vt -> vt -> V -> V).
  (** fresh memory has the requested size; nothing is known about its contents *)
  Context (posjunk : nat -> list (nat * nat)) (junk : nat -> nat -> list V).
  Context (Hpos : forall n, length (posjunk n) = n) (Hjunk : forall n i, length (junk n i) = n).
  Lemma created n (ts : list vt) (ls : list L) : length ts = length ls -> NoDup ls -> exists cs, create_frame junk n ts ls = Ok (mkFrame n cs) /\ map c_ty cs = ts /\ map c_label cs = ls /\ forall i c, cs !! i = Some c -> c_cells c = junk n i.
  Proof.
    intros Hl Hn. unfold create_frame. rewrite decide_True by done. eexists. split; [done|]. destruct (zip_types ts ls (junk n) Hl) as [A B]. split; [done|]. split; [done|]. intros i c Hc. apply list_lookup_imap_Some in Hc as (x & _ & ->). done.
  Qed.
  (** The join of two frames has, in lexicographic order, one row for each pair of rows that meets all conditions. *)
  Theorem C70_theta_join (lhs rhs : frame V L) on : valid lhs -> valid rhs -> NoDup (map c_label (f_cols lhs) ++ map c_label (f_cols rhs)) ->
    (forall c, c ∈ f_cols lhs ++ f_cols rhs -> deducible (c_ty c) = true) -> on <> [] ->
    (forall l r c, (l, r, c) ∈ on -> l ∈ map c_label (f_cols lhs) /\ r ∈ map c_label (f_cols rhs)) ->
    exists res ps, theta_join cmpv conv posjunk junk lhs rhs on = Ok res /\ StronglySorted before ps /\
      (forall i j, (i, j) ∈ ps <-> i < f_rows lhs /\ j < f_rows rhs /\ forall o, o ∈ on -> meets cmpv conv lhs rhs i j o) /\ rows_of lhs rhs res ps.
  Proof.
    intros Hl Hr Hn Hd Hne Hnm. unfold theta_join.
    destruct (equations_ok lhs rhs on) as (es & -> & Hes).
    { apply Forall_forall. intros [[l r] c] Hin. destruct (Hnm _ _ _ Hin) as [A B]. apply elem_of_list_fmap in A as (x & -> & Hx). apply elem_of_list_fmap in B as (y & -> & Hy). split; eexists; done. }
    cbn [obind]. destruct (compare_all_ok cmpv conv lhs rhs (posjunk (f_rows lhs * f_rows rhs)) es Hl Hr) as (p & -> & Hst).
    { apply Forall_forall. intros e He. apply elem_of_list_lookup in He as [k Hk]. destruct (Forall2_lookup_r _ _ _ _ _ Hes Hk) as (o & _ & (cl & cr & H1 & _ & H3 & _)). exists cl, cr. split; [done|]. split; [done|]. split; apply Hd; apply elem_of_app; [left|right]; by eapply elem_of_list_lookup_2. }
    { intros ->. by inversion Hes. } { done. }
    cbn [obind]. destruct Hl as [Hl1 Hl2], Hr as [Hr1 Hr2].
    set (ps := filter _ _) in Hst.
    assert (forall i j, (i, j) ∈ ps <-> i < f_rows lhs /\ j < f_rows rhs /\ forall o, o ∈ on -> meets cmpv conv lhs rhs i j o) as Hps.
    { intros i j. unfold ps. rewrite elem_of_list_filter, all_pairs_in, Forall_forall. split.
      - intros (H1 & H2 & H3). split; [done|]. split; [done|]. intros o Ho. apply elem_of_list_lookup in Ho as [k Hk]. destruct (Forall2_lookup_l _ _ _ _ _ Hes Hk) as (e & He & Hn2). apply (meets_iff cmpv conv lhs rhs o e); [done|done|done|]. apply H1. by eapply elem_of_list_lookup_2.
      - intros (H2 & H3 & H1). split; [|done]. intros e He. apply elem_of_list_lookup in He as [k Hk]. destruct (Forall2_lookup_r _ _ _ _ _ Hes Hk) as (o & Ho & Hn2). apply (meets_iff cmpv conv lhs rhs o e); [done|done|done|]. apply H1. by eapply elem_of_list_lookup_2. }
    destruct (created (p_size p) (map c_ty (f_cols lhs) ++ map c_ty (f_cols rhs)) (map c_label (f_cols lhs) ++ map c_label (f_cols rhs))) as (cs & -> & Ht & Hlb & Hc); [by rewrite !app_length, !map_length|done|]. cbn [obind f_cols f_rows].
    assert (length cs = length (f_cols lhs) + length (f_cols rhs)) as Hlen by (rewrite <- (map_length c_ty cs), Ht, app_length, !map_length; done).
    pose proof Hst as (Hsz & _).
    assert (forall c, c ∈ cs -> length (c_cells c) = length ps) as Hcl by (intros c [k Hk]%elem_of_list_lookup; rewrite (Hc _ _ Hk), Hjunk; done).
    destruct (write_columns_ok p ps _ fst Hst (f_cols lhs) (take (length (f_cols lhs)) cs)) as (ls & -> & A1 & A2 & A3).
    { rewrite take_length. lia. } { intros c Hin. apply Hd. apply elem_of_app. by left. } { intros c [i j] Hin Hx. rewrite Hl2 by done. by apply Hps in Hx as [? _]. } { intros c Hin. apply Hcl. by eapply elem_of_take in Hin as (? & ?%elem_of_list_lookup_2 & _). }
    cbn [obind]. destruct (write_columns_ok p ps _ snd Hst (f_cols rhs) (drop (length (f_cols lhs)) cs)) as (rs & -> & B1 & B2 & B3).
    { rewrite drop_length. lia. } { intros c Hin. apply Hd. apply elem_of_app. by right. } { intros c [i j] Hin Hx. rewrite Hr2 by done. by apply Hps in Hx as (_ & ? & _). } { intros c [k Hk]%elem_of_list_lookup. rewrite lookup_drop in Hk. apply Hcl. by eapply elem_of_list_lookup_2. }
    cbn [obind]. exists (mkFrame (p_size p) (ls ++ rs)), ps. split; [done|]. split; [apply sorted_filter, all_pairs_sorted|]. split; [done|].
    assert (length ls = length (f_cols lhs)) as Hll by (symmetry; by eapply Forall2_length). assert (length rs = length (f_cols rhs)) as Hlr by (symmetry; by eapply Forall2_length).
    split; [done|]. cbn [f_cols f_rows]. split; [rewrite map_app, A1, B1, <- map_app, take_drop; done|]. split; [rewrite map_app, A2, B2, <- map_app, take_drop; done|]. split.
    - intros c Hin. rewrite Hsz. apply elem_of_app in Hin as [Hin|Hin]; apply elem_of_list_lookup in Hin as [k Hk]; [destruct (Forall2_lookup_r _ _ _ _ _ A3 Hk) as (? & _ & ? & _)|destruct (Forall2_lookup_r _ _ _ _ _ B3 Hk) as (? & _ & ? & _)]; done.
    - intros k i j Hk. split; intros c Hcn; unfold cell; cbn [f_cols].
      + rewrite lookup_app_l by lia. destruct (lookup_lt_is_Some_2 (f_cols lhs) c Hcn) as [x Hx]. destruct (Forall2_lookup_l _ _ _ _ _ A3 Hx) as (y & Hy & _ & H2). rewrite Hx, Hy. cbn. by rewrite (H2 _ _ Hk).
      + rewrite lookup_app_r by lia. replace (length (f_cols lhs) + c - length ls) with c by lia. destruct (lookup_lt_is_Some_2 (f_cols rhs) c Hcn) as [x Hx]. destruct (Forall2_lookup_l _ _ _ _ _ B3 Hx) as (y & Hy & _ & H2). rewrite Hx, Hy. cbn. by rewrite (H2 _ _ Hk).
  Qed.
  (** A column that does not exist is rejected. *)
  Theorem C70_theta_join_unknown_column (lhs rhs : frame V L) on l r c : (l, r, c) ∈ on -> l ∉ map c_label (f_cols lhs) \/ r ∉ map c_label (f_cols rhs) -> theta_join cmpv conv posjunk junk lhs rhs on = Throw.
  Proof.
    intros Hin H. unfold theta_join. rewrite equations_throw; [done|]. rewrite Forall_forall. intros H'. destruct (H' _ Hin) as [(x & Hx & Ex) (y & Hy & Ey)]. cbn in *. destruct H as [H|H]; destruct H; apply elem_of_list_fmap; [by exists x|by exists y].
  Qed.
  (** So is the join of frames that share a label, and of frames with a string column, even where no condition names it. *)
  Theorem C70_theta_join_rejects (lhs rhs : frame V L) on : valid lhs -> valid rhs -> on <> [] ->
    ~ NoDup (map c_label (f_cols lhs) ++ map c_label (f_cols rhs)) \/ (exists c, c ∈ f_cols lhs ++ f_cols rhs /\ deducible (c_ty c) = false) ->
    theta_join cmpv conv posjunk junk lhs rhs on = Throw.
  Proof.
    intros Hl Hr Hne Hbad. unfold theta_join. destruct (decide (Forall (fun o : L * L * cmp => o.1.1 ∈ map c_label (f_cols lhs) /\ o.1.2 ∈ map c_label (f_cols rhs)) on)) as [Hnm|Hnm].
    2: { rewrite equations_throw; [done|]. intros H. apply Hnm. eapply Forall_impl; [exact H|]. intros o [(x & Hx & Ex) (y & Hy & Ey)]. split; apply elem_of_list_fmap; [by exists x|by exists y]. }
    destruct (equations_ok lhs rhs on) as (es & -> & Hes).
    { eapply Forall_impl; [exact Hnm|]. intros o [A B]. apply elem_of_list_fmap in A as (x & Ex & Hx). apply elem_of_list_fmap in B as (y & Ey & Hy). split; eexists; done. }
    cbn [obind]. assert (Forall (in_frames lhs rhs) es) as Hf.
    { apply Forall_forall. intros e He. apply elem_of_list_lookup in He as [k Hk]. destruct (Forall2_lookup_r _ _ _ _ _ Hes Hk) as (o & _ & H). by eapply names_in. }
    assert (Forall (eq_wf lhs rhs) es \/ ~ Forall (eq_wf lhs rhs) es) as [Hw|Hw].
    { clear -Hf. induction Hf as [|e es He Hf IH]; [by left|]. destruct (eq_wf_dec _ _ _ He) as [H|(cl & cr & H1 & H2 & H3)]; [destruct IH; [left; by constructor|right; inversion 1; done]|]. right. inversion 1 as [|? ? (cl' & cr' & A & B & C & D)]; subst. simplify_eq. rewrite C, D in H3. done. }
    2: { rewrite compare_all_throw; done. }
    destruct (compare_all_ok cmpv conv lhs rhs (posjunk (f_rows lhs * f_rows rhs)) es Hl Hr Hw) as (p & -> & Hst); [intros ->; by inversion Hes|done|]. cbn [obind].
    set (ps := filter _ _) in Hst. assert (forall x, x ∈ ps -> x.1 < f_rows lhs /\ x.2 < f_rows rhs) as Hps by (intros [i j] [_ Hx]%elem_of_list_filter; by apply all_pairs_in in Hx). clearbody ps.
    destruct (decide (NoDup (map c_label (f_cols lhs) ++ map c_label (f_cols rhs)))) as [Hn|Hn]; [|unfold create_frame; by rewrite decide_False]. destruct Hbad as [?|(c & Hc & Hd)]; [done|].
    destruct (created (p_size p) (map c_ty (f_cols lhs) ++ map c_ty (f_cols rhs)) (map c_label (f_cols lhs) ++ map c_label (f_cols rhs))) as (cs & -> & Ht & Hlb & Hcs); [by rewrite !app_length, !map_length|done|]. cbn [obind f_cols f_rows].
    assert (length cs = length (f_cols lhs) + length (f_cols rhs)) as Hlen by (rewrite <- (map_length c_ty cs), Ht, app_length, !map_length; done).
    pose proof Hst as (Hsz & _). destruct Hl as [_ Hl2], Hr as [_ Hr2].
    assert (forall c, c ∈ cs -> length (c_cells c) = length ps) as Hcl by (intros d [k Hk]%elem_of_list_lookup; rewrite (Hcs _ _ Hk), Hjunk; done).
    assert (length (f_cols lhs) = length (take (length (f_cols lhs)) cs)) as T1 by (rewrite take_length; lia). assert (length (f_cols rhs) = length (drop (length (f_cols lhs)) cs)) as T2 by (rewrite drop_length; lia).
    assert (forall c x, c ∈ f_cols lhs -> x ∈ ps -> fst x < length (c_cells c)) as T3 by (intros d x Hin Hx; rewrite Hl2 by done; by apply Hps). assert (forall c x, c ∈ f_cols rhs -> x ∈ ps -> snd x < length (c_cells c)) as T4 by (intros d x Hin Hx; rewrite Hr2 by done; by apply Hps).
    assert (forall c, c ∈ take (length (f_cols lhs)) cs -> length (c_cells c) = length ps) as T5 by (intros d Hin; apply Hcl; by eapply elem_of_take in Hin as (? & ?%elem_of_list_lookup_2 & _)).
    assert (forall c, c ∈ drop (length (f_cols lhs)) cs -> length (c_cells c) = length ps) as T6 by (intros d [k Hk]%elem_of_list_lookup; rewrite lookup_drop in Hk; apply Hcl; by eapply elem_of_list_lookup_2).
    destruct (decide (Exists (fun c : col V L => deducible (c_ty c) = false) (f_cols lhs))) as [He|He].
    - apply Exists_exists in He as (d & Hd1 & Hd2). rewrite (write_columns_throw p ps _ fst Hst); [done|done|by exists d|done|done].
    - destruct (write_columns_ok p ps _ fst Hst (f_cols lhs) (take (length (f_cols lhs)) cs)) as (ls & -> & _); [done|intros d Hd1; destruct (deducible (c_ty d)) eqn:E; [done|]; destruct He; apply Exists_exists; by exists d|done|done|]. cbn [obind].
      rewrite (write_columns_throw p ps _ snd Hst); [done|done| |done|done]. exists c. split; [|done]. apply elem_of_app in Hc as [Hc|Hc]; [|done]. destruct He. apply Exists_exists. by exists c.
  Qed.
  (** Without a condition the code reads through a null pointer. *)
  Theorem C70_theta_join_no_condition (lhs rhs : frame V L) : theta_join cmpv conv posjunk junk lhs rhs [] = UB.
  Proof. done. Qed.
End Theorems.

(** ** Cartesian product *)
Section Cart.
  Context {V L : Type} `{EqDecision L} (junk : nat -> nat -> list V) (Hjunk : forall n i, length (junk n i) = n).
  Definition copied (t : vt) : bool := match t with SI64 | F64 => true | _ => false end.
  Section Inv.
    Context (lhs rhs : frame V L) (Hl : valid lhs) (Hr : valid rhs).
    Notation n := (length (f_cols lhs)).
    Notation tot := (f_rows rhs * f_rows lhs).
    Notation schema := (map c_ty (f_cols lhs) ++ map c_ty (f_cols rhs)).
    (** what belongs into row [k] and column [c] *)
    Definition want (k c : nat) : option V := if decide (c < n) then cell lhs (k / f_rows rhs) c else cell rhs (k mod f_rows rhs) (c - n).
    Definition upto (t d : nat) (cols : list (col V L)) : Prop :=
      map c_ty cols = schema /\ map c_label cols = map c_label (f_cols lhs) ++ map c_label (f_cols rhs) /\
      forall c o, cols !! c = Some o -> length (c_cells o) = tot /\
        forall k, k < tot -> c_cells o !! k = if copied (c_ty o) && bool_decide (k < t \/ k = t /\ c < d) then want k c else junk tot c !! k.
    Lemma upto_copy t d cols (o : col V L) v : upto t d cols -> cols !! d = Some o -> copied (c_ty o) = true -> t < tot -> want t d = Some v ->
      upto t (d + 1) (<[d := mkCol (c_ty o) (c_label o) (<[t := v]> (c_cells o))]> cols).
    Proof.
      intros (H1 & H2 & H3) Ho Hc Ht Hv. pose proof (lookup_lt_Some _ _ _ Ho). split; [|split].
      - rewrite <- H1. apply list_eq. intros i. rewrite !list_lookup_fmap. destruct (decide (i = d)) as [->|]; [rewrite list_lookup_insert by done; by rewrite Ho|by rewrite list_lookup_insert_ne].
      - rewrite <- H2. apply list_eq. intros i. rewrite !list_lookup_fmap. destruct (decide (i = d)) as [->|]; [rewrite list_lookup_insert by done; by rewrite Ho|by rewrite list_lookup_insert_ne].
      - intros c o' Ho'. destruct (decide (c = d)) as [->|Hne].
        + rewrite list_lookup_insert in Ho' by done. injection Ho' as <-. cbn [c_cells c_ty]. rewrite insert_length. destruct (H3 _ _ Ho) as [A B]. split; [done|]. intros k Hk. rewrite Hc. cbn [andb]. destruct (decide (k = t)) as [->|Hkt].
          * rewrite list_lookup_insert by lia. rewrite bool_decide_true by lia. done.
          * rewrite list_lookup_insert_ne by done. rewrite B by done. rewrite Hc. cbn [andb]. by rewrite (bool_decide_ext (k < t \/ k = t /\ d < d) (k < t \/ k = t /\ d < d + 1)) by lia.
        + rewrite list_lookup_insert_ne in Ho' by done. destruct (H3 _ _ Ho') as [A B]. split; [done|]. intros k Hk. rewrite B by done. by rewrite (bool_decide_ext (k < t \/ k = t /\ c < d) (k < t \/ k = t /\ c < d + 1)) by lia.
    Qed.
    Lemma upto_skip t d cols o : upto t d cols -> cols !! d = Some o -> copied (c_ty o) = false -> upto t (d + 1) cols.
    Proof.
      intros (H1 & H2 & H3) Ho Hc. split; [done|]. split; [done|]. intros c o' Ho'. destruct (H3 _ _ Ho') as [A B]. split; [done|]. intros k Hk. rewrite B by done. destruct (decide (c = d)) as [->|]; [assert (o' = o) as -> by congruence; by rewrite Hc|]. by rewrite (bool_decide_ext (k < t \/ k = t /\ c < d) (k < t \/ k = t /\ c < d + 1)) by lia.
    Qed.
    Lemma set_step (arg : frame V L) (a : col V L) t d cols from fc : upto t d cols -> t < tot -> f_cols arg !! fc = Some a -> schema !! d = Some (c_ty a) -> from < f_rows arg -> is_Some (c_cells a !! from) -> c_cells a !! from = want t d ->
      exists cols', (let* cols := cart_set SI64 (c_ty a) tot cols arg t d from fc in let* cols := cart_set F64 (c_ty a) tot cols arg t d from fc in Ok (cols, d + 1)) = Ok (cols', d + 1) /\ upto t (d + 1) cols'.
    Proof.
      intros Hu Ht Ha Hs Hf [v Hv] Hw. pose proof Hu as (H1 & _ & H3). rewrite <- H1 in Hs. apply list_lookup_fmap_Some in Hs as (o & Ho & Eo). destruct (H3 _ _ Ho) as [Hlen _]. unfold cart_set.
      rewrite (rd_Ok _ _ _ Ha), (rd_Ok _ _ _ Ho). pose proof (lookup_lt_Some _ _ _ Ho). destruct (copied (c_ty o)) eqn:Ec.
      - assert (c_ty a = SI64 \/ c_ty a = F64) as [E|E] by (rewrite Eo; destruct (c_ty o); auto; done).
        + rewrite decide_True by done. cbn [obind]. rewrite (decide_False (P := c_ty a <> SI64)) by tauto. rewrite (decide_False (P := c_ty o <> SI64)) by (rewrite <- Eo; tauto). rewrite decide_False by lia. rewrite decide_False by lia.
          rewrite (rd_Ok _ _ _ Hv). cbn [obind]. rewrite wr_Ok by lia. cbn [obind]. rewrite wr_Ok by lia. cbn [obind]. rewrite decide_False by congruence. cbn [obind]. eexists. split; [done|]. apply upto_copy; try done. congruence.
        + rewrite decide_False by congruence. cbn [obind]. rewrite decide_True by done. rewrite (rd_Ok _ _ _ Ho). cbn [obind]. rewrite (decide_False (P := c_ty a <> F64)) by tauto. rewrite (decide_False (P := c_ty o <> F64)) by (rewrite <- Eo; tauto). rewrite decide_False by lia. rewrite decide_False by lia.
          rewrite (rd_Ok _ _ _ Hv). cbn [obind]. rewrite wr_Ok by lia. cbn [obind]. rewrite wr_Ok by lia. cbn [obind]. eexists. split; [done|]. apply upto_copy; try done. congruence.
      - rewrite decide_False by (rewrite Eo; intros E; by rewrite E in Ec). cbn [obind]. rewrite decide_False by (rewrite Eo; intros E; by rewrite E in Ec). cbn [obind]. eexists. split; [done|]. eapply upto_skip; done.
    Qed.
    Lemma cols_ok (arg : frame V L) t d cols from : valid arg -> upto t d cols -> t < tot -> from < f_rows arg ->
      (forall c a, f_cols arg !! c = Some a -> schema !! (d + c) = Some (c_ty a) /\ c_cells a !! from = want t (d + c)) ->
      exists cols', cart_cols schema tot arg t from (cols, d) = Ok (cols', d + length (f_cols arg)) /\ upto t (d + length (f_cols arg)) cols'.
    Proof.
      intros Hv Hu Ht Hf Hc. unfold cart_cols.
      destruct (for_up_inv (fun c (s : list (col V L) * nat) => s.2 = d + c /\ upto t (d + c) s.1) 0 (length (f_cols arg)) (fun c (s : list (col V L) * nat) =>
        let* ty := rd schema (snd s) in let* cols := cart_set SI64 ty tot (fst s) arg t (snd s) from c in let* cols := cart_set F64 ty tot cols arg t (snd s) from c in Ok (cols, snd s + 1)) (cols, d)) as ([cols' d'] & E & H1 & H2).
      - lia.
      - cbn. rewrite Nat.add_0_r. done.
      - intros c [cs e] Hcn [H1 H2]. cbn in H1, H2. subst e. destruct (lookup_lt_is_Some_2 (f_cols arg) c) as [a Ha]; [lia|]. destruct (Hc _ _ Ha) as [A B]. cbn [fst snd]. rewrite (rd_Ok _ _ _ A). cbn [obind].
        destruct (set_step arg a t (d + c) cs from c H2 Ht Ha A Hf) as (cs' & -> & H3); [|done|]. { apply lookup_lt_is_Some_2. destruct Hv as [_ ->]; [done|]. by eapply elem_of_list_lookup_2. }
        exists (cs', d + c + 1). split; [done|]. cbn. replace (d + S c) with (d + c + 1) by lia. done.
      - cbn in H1, H2. subst d'. exists cols'. done.
    Qed.
    Lemma row_ok l r cols : l < f_rows lhs -> r < f_rows rhs -> upto (l * f_rows rhs + r) 0 cols ->
      exists cols', (let* t := cart_cols schema tot lhs (l * f_rows rhs + r) l (cols, 0) in let* t := cart_cols schema tot rhs (l * f_rows rhs + r) r t in Ok (fst t, l * f_rows rhs + r + 1)) = Ok (cols', l * f_rows rhs + r + 1) /\ upto (l * f_rows rhs + r + 1) 0 cols'.
    Proof.
      intros Hln Hrn Hu. assert (l * f_rows rhs + r < tot) as Ht. { assert (S l * f_rows rhs <= f_rows lhs * f_rows rhs) by (apply Nat.mul_le_mono_r; lia). cbn in *. lia. }
      assert ((l * f_rows rhs + r) / f_rows rhs = l) as Hdiv by (rewrite Nat.div_add_l by lia; rewrite Nat.div_small by lia; lia).
      assert ((l * f_rows rhs + r) mod f_rows rhs = r) as Hmod by (rewrite Nat.add_comm, Nat.mod_add by lia; by apply Nat.mod_small).
      destruct (cols_ok lhs _ _ _ l Hl Hu Ht Hln) as (c1 & -> & H1).
      { intros c a Ha. pose proof (lookup_lt_Some _ _ _ Ha). cbn [Nat.add]. rewrite lookup_app_l by (by rewrite map_length). split; [apply list_lookup_fmap_Some; by exists a|]. unfold want. rewrite decide_True, Hdiv by done. unfold cell. by rewrite Ha. }
      cbn [obind Nat.add]. destruct (cols_ok rhs _ _ _ r Hr H1 Ht Hrn) as (c2 & E2 & H2).
      { intros c a Ha. pose proof (lookup_lt_Some _ _ _ Ha). cbn [Nat.add]. rewrite lookup_app_r by (rewrite map_length; lia). rewrite map_length. replace (n + c - n) with c by lia. split; [apply list_lookup_fmap_Some; by exists a|]. unfold want. rewrite decide_False, Hmod by lia. unfold cell. replace (n + c - n) with c by lia. by rewrite Ha. }
      cbn [Nat.add] in E2. rewrite E2. cbn [obind fst]. eexists. split; [done|]. destruct H2 as (A & B & C). split; [done|]. split; [done|]. intros c o Ho. destruct (C _ _ Ho) as [C1 C2]. split; [done|]. intros k Hk. rewrite C2 by done.
      assert (c < n + length (f_cols rhs)). { apply lookup_lt_Some in Ho. rewrite <- (map_length c_ty c2), A, app_length, !map_length in Ho. done. }
      rewrite (bool_decide_ext (k < l * f_rows rhs + r \/ k = l * f_rows rhs + r /\ c < 0 + n + length (f_cols rhs)) (k < l * f_rows rhs + r + 1 \/ k = l * f_rows rhs + r + 1 /\ c < 0)) by lia. done.
    Qed.
    Lemma cart_ok cols : upto 0 0 cols -> exists cols' t, for_up 0 (f_rows lhs) (fun l s => for_up 0 (f_rows rhs) (fun r (s : list (col V L) * nat) =>
      let* t := cart_cols schema tot lhs (snd s) l (fst s, 0) in let* t := cart_cols schema tot rhs (snd s) r t in Ok (fst t, snd s + 1)) s) (cols, 0) = Ok (cols', t) /\ upto tot 0 cols'.
    Proof.
      intros Hu. destruct (for_up_inv (fun l (s : list (col V L) * nat) => s.2 = l * f_rows rhs /\ upto (l * f_rows rhs) 0 s.1) 0 (f_rows lhs) (fun l s => for_up 0 (f_rows rhs) (fun r (s : list (col V L) * nat) =>
      let* t := cart_cols schema tot lhs (snd s) l (fst s, 0) in let* t := cart_cols schema tot rhs (snd s) r t in Ok (fst t, snd s + 1)) s) (cols, 0)) as ([cols' t] & E & H1 & H2).
      - lia.
      - done.
      - intros l [cs e] Hln [H1 H2]. cbn in H1, H2. subst e. destruct (for_up_inv (fun r (s : list (col V L) * nat) => s.2 = l * f_rows rhs + r /\ upto (l * f_rows rhs + r) 0 s.1) 0 (f_rows rhs) (fun r (s : list (col V L) * nat) =>
          let* t := cart_cols schema tot lhs (snd s) l (fst s, 0) in let* t := cart_cols schema tot rhs (snd s) r t in Ok (fst t, snd s + 1)) (cs, l * f_rows rhs)) as ([cs' e'] & E & H3 & H4).
        + lia.
        + cbn. rewrite Nat.add_0_r. done.
        + intros r [c1 e1] Hrn [A B]. cbn in A, B. subst e1. cbn [fst snd]. destruct (row_ok l r c1) as (c2 & E2 & H5); [lia|lia|done|]. rewrite E2. eexists. split; [done|]. cbn. replace (l * f_rows rhs + S r) with (l * f_rows rhs + r + 1) by lia. done.
        + exists (cs', e'). split; [done|]. cbn in H3, H4 |- *. replace (f_rows rhs + l * f_rows rhs) with (l * f_rows rhs + f_rows rhs) by lia. done.
      - exists cols', t. split; [done|]. cbn in H2. by rewrite Nat.mul_comm.
    Qed.
  End Inv.
  Lemma all_pairs_lookup a b k i j : all_pairs a b !! k = Some (i, j) -> k = i * b + j /\ i < a /\ j < b.
  Proof.
    induction a as [|a IH]; [done|]. rewrite all_pairs_S. intros H. destruct (decide (k < a * b)) as [Hk|Hk].
    - rewrite lookup_app_l in H by (by rewrite all_pairs_length). destruct (IH H). lia.
    - rewrite lookup_app_r in H by (rewrite all_pairs_length; lia). rewrite all_pairs_length in H. apply list_lookup_fmap_Some in H as (j' & Hj & [= -> ->]). apply lookup_seq in Hj. lia.
  Qed.
  Lemma cartesian_upto (lhs rhs : frame V L) : valid lhs -> valid rhs -> NoDup (map c_label (f_cols lhs) ++ map c_label (f_cols rhs)) ->
    exists res, cartesian junk lhs rhs = Ok res /\ f_rows res = f_rows lhs * f_rows rhs /\ upto lhs rhs (f_rows rhs * f_rows lhs) 0 (f_cols res).
  Proof.
    intros Hl Hr Hn. unfold cartesian. destruct (created junk (f_rows rhs * f_rows lhs) (map c_ty (f_cols lhs) ++ map c_ty (f_cols rhs)) (map c_label (f_cols lhs) ++ map c_label (f_cols rhs))) as (cs & -> & Ht & Hlb & Hcs); [by rewrite !app_length, !map_length|done|]. cbn [obind f_cols].
    destruct (cart_ok lhs rhs Hl Hr cs) as (cols & t & E & Hu).
    { split; [done|]. split; [done|]. intros c o Ho. rewrite (Hcs _ _ Ho), Hjunk. split; [done|]. intros k Hk. rewrite bool_decide_false by lia. by rewrite andb_false_r. }
    rewrite E. cbn [obind fst]. eexists. split; [done|]. split; [apply Nat.mul_comm|done].
  Qed.
  (** If all columns hold int64 or double values, the product has every pair of rows, in lexicographic order. *)
  Theorem C70_cartesian (lhs rhs : frame V L) : valid lhs -> valid rhs -> NoDup (map c_label (f_cols lhs) ++ map c_label (f_cols rhs)) ->
    (forall c, c ∈ f_cols lhs ++ f_cols rhs -> c_ty c = SI64 \/ c_ty c = F64) ->
    exists res ps, cartesian junk lhs rhs = Ok res /\ StronglySorted before ps /\ (forall i j, (i, j) ∈ ps <-> i < f_rows lhs /\ j < f_rows rhs) /\ rows_of lhs rhs res ps.
  Proof.
    intros Hl Hr Hn Hty. destruct (cartesian_upto lhs rhs Hl Hr Hn) as (res & E & Hrows & H1 & H2 & H3). exists res, (all_pairs (f_rows lhs) (f_rows rhs)). split; [done|]. split; [apply all_pairs_sorted|]. split; [intros; apply all_pairs_in|].
    assert (forall c o, f_cols res !! c = Some o -> copied (c_ty o) = true) as Hcp.
    { intros c o Ho. assert ((c_ty <$> f_cols res) !! c = Some (c_ty o)) as H by (rewrite list_lookup_fmap; by rewrite Ho). change (c_ty <$> f_cols res) with (map c_ty (f_cols res)) in H. rewrite H1, <- map_app in H. apply list_lookup_fmap_Some in H as (a & Ha & ->). destruct (Hty a) as [-> | ->]; [|done|done]. by eapply elem_of_list_lookup_2. }
    split; [by rewrite all_pairs_length|]. split; [done|]. split; [done|]. split; [intros c [k Hk]%elem_of_list_lookup; rewrite Hrows, Nat.mul_comm; by eapply H3|].
    assert (length (f_cols res) = length (f_cols lhs) + length (f_cols rhs)) as Hlen by (rewrite <- (map_length c_ty (f_cols res)), H1, app_length, !map_length; done).
    intros k i j Hk. apply all_pairs_lookup in Hk as (-> & Hi & Hj). assert (i * f_rows rhs + j < f_rows rhs * f_rows lhs) as Hlt. { assert (S i * f_rows rhs <= f_rows lhs * f_rows rhs) by (apply Nat.mul_le_mono_r; lia). cbn in *. lia. }
    assert ((i * f_rows rhs + j) / f_rows rhs = i) as Hdiv by (rewrite Nat.div_add_l by lia; rewrite Nat.div_small by lia; lia). assert ((i * f_rows rhs + j) mod f_rows rhs = j) as Hmod by (rewrite Nat.add_comm, Nat.mod_add by lia; by apply Nat.mod_small).
    assert (forall c, c < length (f_cols res) -> cell res (i * f_rows rhs + j) c = want lhs rhs (i * f_rows rhs + j) c) as Hw.
    { intros c Hc. unfold cell at 1. destruct (lookup_lt_is_Some_2 (f_cols res) c Hc) as [o Ho]. rewrite Ho. cbn. destruct (H3 _ _ Ho) as [_ ->]; [|done]. rewrite (Hcp _ _ Ho). rewrite bool_decide_true by lia. done. }
    split; intros c Hc; rewrite Hw by lia; unfold want.
    - by rewrite decide_True, Hdiv.
    - rewrite decide_False, Hmod by lia. by replace (length (f_cols lhs) + c - length (f_cols lhs)) with c by lia.
  Qed.
  (** Columns of any other type are never written: the product returns whatever was in the memory. *)
  Theorem C70_cartesian_other_types_refuted (lhs rhs : frame V L) : valid lhs -> valid rhs -> NoDup (map c_label (f_cols lhs) ++ map c_label (f_cols rhs)) ->
    exists res, cartesian junk lhs rhs = Ok res /\ forall c t k, (map c_ty (f_cols lhs) ++ map c_ty (f_cols rhs)) !! c = Some t -> t <> SI64 -> t <> F64 -> cell res k c = junk (f_rows rhs * f_rows lhs) c !! k.
  Proof.
    intros Hl Hr Hn. destruct (cartesian_upto lhs rhs Hl Hr Hn) as (res & E & Hrows & H1 & H2 & H3). exists res. split; [done|]. intros c t k Ht Hn1 Hn2. rewrite <- H1 in Ht. apply list_lookup_fmap_Some in Ht as (o & Ho & ->). unfold cell. rewrite Ho. cbn. destruct (H3 _ _ Ho) as [A B].
    destruct (decide (k < f_rows rhs * f_rows lhs)) as [Hk|Hk]; [rewrite B by done; by destruct (c_ty o)|]. rewrite !lookup_ge_None_2; [done|rewrite Hjunk; lia|lia].
  Qed.
  (** Frames that share a label are rejected. *)
  Theorem C70_cartesian_rejects (lhs rhs : frame V L) : ~ NoDup (map c_label (f_cols lhs) ++ map c_label (f_cols rhs)) -> cartesian junk lhs rhs = Throw.
  Proof. intros H. unfold cartesian, create_frame. by rewrite decide_False. Qed.
End Cart.

(** ** Values of different types: numbers as multiples of one half, the casts truncate to integers and wrap for uint64 *)
Definition hcmp (_ : vt) (c : cmp) (a b : Z) : bool :=
  match c with Equal => (a =? b)%Z | NotEqual => negb (a =? b)%Z | LessThan => (a <? b)%Z | LessEqual => (a <=? b)%Z | GreaterThan => (b <? a)%Z | GreaterEqual => (b <=? a)%Z end.
Definition hconv (_ to : vt) (v : Z) : Z :=
  match to with F32 | F64 => v | UI64 => (2 * (Z.quot v 2 mod 2 ^ 64))%Z | _ => (2 * Z.quot v 2)%Z end.
Definition hpos (n : nat) : list (nat * nat) := replicate n (9, 9).
Definition hjunk (n _ : nat) : list Z := replicate n 7%Z.
Definition one (t : vt) (l : nat) (cells : list Z) : frame Z nat := mkFrame (length cells) [mkCol t l cells].
(** 1 = 1.5 holds if the integer is on the left, not if it is on the right; -1 < 2 holds for int64, not if the 2 is uint64 and on the left. *)
Theorem C70_mixed_types_refuted :
  (exists res, theta_join hcmp hconv hpos hjunk (one SI64 0 [2%Z]) (one F64 1 [3%Z]) [(0, 1, Equal)] = Ok res /\ f_rows res = 1) /\
  (exists res, theta_join hcmp hconv hpos hjunk (one F64 1 [3%Z]) (one SI64 0 [2%Z]) [(1, 0, Equal)] = Ok res /\ f_rows res = 0) /\
  (exists res, theta_join hcmp hconv hpos hjunk (one SI64 0 [(-2)%Z]) (one UI64 1 [4%Z]) [(0, 1, LessThan)] = Ok res /\ f_rows res = 1) /\
  (exists res, theta_join hcmp hconv hpos hjunk (one UI64 1 [4%Z]) (one SI64 0 [(-2)%Z]) [(1, 0, GreaterThan)] = Ok res /\ f_rows res = 0).
Proof. split; [|split; [|split]]; eexists; (split; [vm_compute; reflexivity|reflexivity]). Qed.

(** ** Examples *)
Definition fl : frame Z nat := mkFrame 3 [mkCol SI64 0 [2; 4; 6]%Z; mkCol F64 1 [1; 3; 5]%Z].
Definition fr : frame Z nat := mkFrame 2 [mkCol SI64 2 [4; 6]%Z; mkCol F64 3 [1; 1]%Z].
Example theta_example : theta_join hcmp hconv hpos hjunk fl fr [(0, 2, LessEqual); (1, 3, NotEqual)] =
  Ok (mkFrame 3 [mkCol SI64 0 [4; 4; 6]%Z; mkCol F64 1 [3; 3; 5]%Z; mkCol SI64 2 [4; 6; 6]%Z; mkCol F64 3 [1; 1; 1]%Z]).
Proof. vm_compute. reflexivity. Qed.
Example theta_hypotheses : valid fl /\ valid fr /\ NoDup (map c_label (f_cols fl) ++ map c_label (f_cols fr)) /\ (forall c, c ∈ f_cols fl ++ f_cols fr -> deducible (c_ty c) = true) /\ (forall c, c ∈ f_cols fl ++ f_cols fr -> c_ty c = SI64 \/ c_ty c = F64) /\
  (forall n, length (hpos n) = n) /\ (forall n i, length (hjunk n i) = n).
Proof.
  split; [|split; [|split; [|split; [|split; [|split]]]]].
  - split; [apply (bool_decide_unpack _); vm_compute; exact I|]. apply Forall_forall. repeat constructor.
  - split; [apply (bool_decide_unpack _); vm_compute; exact I|]. apply Forall_forall. repeat constructor.
  - apply (bool_decide_unpack _); vm_compute; exact I.
  - apply Forall_forall. repeat constructor.
  - apply Forall_forall. constructor; [by left|]. constructor; [by right|]. constructor; [by left|]. constructor; [by right|]. constructor.
  - intros n; apply replicate_length.
  - intros; apply replicate_length.
Qed.
Example cartesian_example : cartesian hjunk fl fr =
  Ok (mkFrame 6 [mkCol SI64 0 [2; 2; 4; 4; 6; 6]%Z; mkCol F64 1 [1; 1; 3; 3; 5; 5]%Z; mkCol SI64 2 [4; 6; 4; 6; 4; 6]%Z; mkCol F64 3 [1; 1; 1; 1; 1; 1]%Z]).
Proof. vm_compute. reflexivity. Qed.
Example reject_hypotheses : deducible STR = false /\ ~ NoDup (map c_label (f_cols fl) ++ map c_label (f_cols fl)) /\ theta_join hcmp hconv hpos hjunk fl fr [(0, 9, Equal)] = Throw.
Proof. split; [done|]. split; [|vm_compute; reflexivity]. intros H. apply NoDup_app in H as (_ & H & _). apply (H 0); cbn; left. Qed.

Print Assumptions C70_theta_join.
Print Assumptions C70_theta_join_rejects.
Print Assumptions C70_cartesian.
