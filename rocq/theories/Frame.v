(** Property C17 (and the cell-level meaning of frame slicing, C40): frames. *)
From stdpp Require Import base numbers strings pretty gmap list list_numbers.
From Coq Require Import Lia.
From Verif Require Import CppBase DenseModel DenseSpec DenseProofs FrameModel.

(** A frame whose labels work: looking up a name gives the one column carrying it, other names are rejected. *)
Definition labels_work (f : frame) : Prop :=
  NoDup (f_labels f) /\
  (forall l i, frame_column_idx f l = Ok i <-> f_labels f !! i = Some l) /\
  (forall l, frame_column_idx f l = Throw <-> l ∉ f_labels f).
(** What replacing duplicate names should give: a name that occurred before is replaced by the default name of its position. *)
Definition deduplicated (ls ls' : list string) : Prop :=
  length ls' = length ls /\
  forall i l, ls !! i = Some l -> ls' !! i = Some (if decide (l ∈ take i ls) then default_label i else l).

Lemma default_label_inj i j : default_label i = default_label j -> i = j.
Proof. unfold default_label. intros E. apply (inj pretty). by apply (inj (String.append "col_")) in E. Qed.

Lemma lookup_snoc_Some {A} (l : list A) x i y : (l ++ [x]) !! i = Some y <-> (i < length l /\ l !! i = Some y) \/ (i = length l /\ x = y).
Proof.
  destruct (decide (i < length l)) as [H|H].
  - rewrite lookup_app_l by done. split; [auto|]. intros [[_ ?]|[? _]]; [done|lia].
  - rewrite lookup_app_r by lia. split.
    + intros E. destruct (i - length l) as [|k] eqn:Ek; [|done]. injection E as ->. right. split; [lia|done].
    + intros [[? _]|[-> ->]]; [lia|]. by rewrite Nat.sub_diag.
Qed.

(** The map describes the labels [pre] of the columns handled so far. *)
Definition describes (m : gmap string nat) (pre : list string) : Prop := forall l i, m !! l = Some i <-> pre !! i = Some l.
Lemma describes_nil : describes ∅ [].
Proof. intros l i. rewrite lookup_empty. split; intros; discriminate. Qed.
Lemma describes_snoc m pre l : describes m pre -> l ∉ pre -> describes (<[l := length pre]> m) (pre ++ [l]).
Proof.
  intros H Hn k i. destruct (decide (k = l)) as [->|Hne].
  - rewrite lookup_insert. split.
    + intros [= <-]. by apply list_lookup_middle.
    + intros Hi. apply lookup_snoc_Some in Hi as [[_ Hi]|[-> _]]; [|done]. apply elem_of_list_lookup_2 in Hi. done.
  - rewrite lookup_insert_ne by done. rewrite (H k i), lookup_snoc_Some. split; [intros Hi; left; split; [by eapply lookup_lt_Some|done]|].
    intros [[_ Hi]|[_ Hi]]; congruence.
Qed.
Lemma describes_None m pre l : describes m pre -> m !! l = None <-> l ∉ pre.
Proof.
  intros H. split.
  - intros Hn Hi. apply elem_of_list_lookup in Hi as [i Hi]. apply H in Hi. congruence.
  - intros Hn. destruct (m !! l) as [i|] eqn:E; [|done]. apply H in E. apply elem_of_list_lookup_2 in E. done.
Qed.
Lemma describes_works rows cols ls m : NoDup ls -> describes m ls -> labels_work (mkF rows cols ls m).
Proof.
  intros Hnd H. split; [done|]. unfold frame_column_idx. simpl. split.
  - intros l i. rewrite <- (H l i). destruct (m !! l); split; congruence.
  - intros l. rewrite <- (describes_None m ls l H). destruct (m !! l); split; congruence.
Qed.

Lemma init_labels_spec ls : forall m pre, describes m pre -> NoDup pre ->
  (NoDup (pre ++ ls) -> exists m', init_labels m (length pre) ls = Ok m' /\ describes m' (pre ++ ls)) /\
  (~ NoDup (pre ++ ls) -> init_labels m (length pre) ls = Throw).
Proof.
  induction ls as [|l ls IH]; intros m pre Hm Hnd; simpl.
  - rewrite app_nil_r. split; [eauto|done].
  - replace (pre ++ l :: ls) with ((pre ++ [l]) ++ ls) by (by rewrite <- app_assoc). destruct (m !! l) as [i|] eqn:E.
    + split; [|done]. intros H. exfalso. apply NoDup_app in H as [H _]. apply NoDup_app in H as (_ & H & _).
      apply (H l); [|apply elem_of_list_here]. apply Hm in E. by eapply elem_of_list_lookup_2.
    + apply (describes_None m pre l Hm) in E.
      destruct (IH (<[l := length pre]> m) (pre ++ [l])) as [H1 H2].
      * by apply describes_snoc.
      * apply NoDup_app. split; [done|]. split; [|apply NoDup_singleton]. intros x Hx Hl. apply elem_of_list_singleton in Hl as ->. done.
      * rewrite app_length in H1, H2. simpl in H1, H2. auto.
Qed.
Lemma init_labels_top ls :
  (NoDup ls -> exists m, init_labels ∅ 0 ls = Ok m /\ describes m ls) /\ (~ NoDup ls -> init_labels ∅ 0 ls = Throw).
Proof. apply (init_labels_spec ls ∅ []); [apply describes_nil|constructor]. Qed.

(** C17. Creating a frame with given labels works exactly if they are distinct, and then lookups work. *)
Theorem C17_create rows cols ls :
  (NoDup ls -> exists f, frame_new rows cols (Some ls) = Ok f /\ f_labels f = ls /\ f_cols f = cols /\ labels_work f) /\
  (~ NoDup ls -> frame_new rows cols (Some ls) = Throw).
Proof.
  destruct (init_labels_top ls) as [H1 H2]. unfold frame_new. split; intros Hn.
  - destruct (H1 Hn) as (m & -> & Hm). eexists. split; [done|]. split; [done|]. split; [done|]. by apply describes_works.
  - by rewrite H2.
Qed.
(** Without labels, default labels are used, which are always distinct. *)
Theorem C17_create_default rows cols :
  exists f, frame_new rows cols None = Ok f /\ f_cols f = cols /\ f_labels f = default_label <$> seq 0 (length cols) /\ labels_work f.
Proof.
  destruct (init_labels_top (default_label <$> seq 0 (length cols))) as [H1 _]. unfold frame_new.
  assert (Hnd : NoDup (default_label <$> seq 0 (length cols))).
  { apply NoDup_fmap_2_strong; [|apply NoDup_seq]. intros i j _ _. apply default_label_inj. }
  destruct (H1 Hnd) as (m & -> & Hm). eexists. split; [done|]. split; [done|]. split; [done|]. by apply describes_works.
Qed.
(** Column concatenation. *)
Theorem C17_cbind lhs rhs :
  (f_rows lhs = f_rows rhs /\ NoDup (f_labels lhs ++ f_labels rhs) ->
     exists f, frame_cbind lhs rhs = Ok f /\ f_labels f = f_labels lhs ++ f_labels rhs /\ f_cols f = f_cols lhs ++ f_cols rhs /\ labels_work f) /\
  (~ (f_rows lhs = f_rows rhs /\ NoDup (f_labels lhs ++ f_labels rhs)) -> frame_cbind lhs rhs = Throw).
Proof.
  unfold frame_cbind. destruct (init_labels_top (f_labels lhs ++ f_labels rhs)) as [H1 H2]. split.
  - intros [Hr Hn]. rewrite decide_True by done. destruct (H1 Hn) as (m & -> & Hm). eexists. split; [done|]. split; [done|]. split; [done|].
    by apply describes_works.
  - intros Hn. case_decide; [|done]. rewrite H2; [done|]. tauto.
Qed.
(** Setting labels. *)
Lemma init_labels_partial_Ok ls : forall m i m', init_labels m i ls = Ok m' -> init_labels_partial m i ls = m'.
Proof. induction ls as [|l ls IH]; intros m i m'; simpl; [congruence|]. destruct (m !! l); [done|]. apply IH. Qed.
Theorem C17_set_labels f ls : length ls = length (f_cols f) ->
  (NoDup ls -> snd (frame_set_labels f ls) = Ok tt /\ f_labels (fst (frame_set_labels f ls)) = ls /\ f_cols (fst (frame_set_labels f ls)) = f_cols f /\
               labels_work (fst (frame_set_labels f ls))) /\
  (~ NoDup ls -> snd (frame_set_labels f ls) = Throw).
Proof.
  intros _. destruct (init_labels_top ls) as [H1 H2]. unfold frame_set_labels. simpl. split; intros Hn.
  - destruct (H1 Hn) as (m & E & Hm). rewrite E, (init_labels_partial_Ok _ _ _ _ E). split; [done|]. split; [done|]. split; [done|]. by apply describes_works.
  - by rewrite H2.
Qed.
(** But a rejected setLabels leaves the frame with the rejected, duplicate labels. *)
Theorem C17_rejected_set_labels_refuted :
  exists f ls, labels_work f /\ length ls = length (f_cols f) /\ snd (frame_set_labels f ls) = Throw /\ ~ labels_work (fst (frame_set_labels f ls)) /\
    frame_column_idx f "a" = Ok 0 /\ frame_column_idx (fst (frame_set_labels f ls)) "a" = Throw.
Proof.
  destruct (C17_create 1 [mkCol 0 0 0; mkCol 0 1 0] ["a"; "b"]%string) as [H _].
  destruct H as (f & E & _ & _ & Hw); [by apply (bool_decide_unpack (NoDup _)); vm_compute|].
  exists f, ["c"; "c"]%string. vm_compute in E. injection E as <-.
  split; [done|]. split; [done|]. split; [vm_compute; reflexivity|]. split; [|split; vm_compute; reflexivity].
  intros [Hn _]. simpl in Hn. apply NoDup_cons in Hn as [Hn _]. apply Hn, elem_of_list_here.
Qed.

(** Selecting columns (possibly repeatedly): labels work again if no selected label looks like a default label. *)
Lemma init_dedup_spec all ls : (forall l i, l ∈ all -> i < length all -> l <> default_label i) ->
  forall m pre inp, all = inp ++ ls -> describes m pre -> NoDup pre -> deduplicated inp pre ->
    let '(ls', m') := init_dedup m (length inp) ls in NoDup (pre ++ ls') /\ describes m' (pre ++ ls') /\ deduplicated all (pre ++ ls').
Proof.
  intros Hd. induction ls as [|l ls IH]; intros m pre inp Hall Hm Hnd Hde; simpl.
  - rewrite app_nil_r in *. by subst.
  - assert (Hla : l ∈ all) by (rewrite Hall; apply elem_of_app; right; apply elem_of_list_here).
    assert (Hli : length inp < length all) by (rewrite Hall, app_length; simpl; lia).
    assert (Hel : forall x, x ∈ pre -> x ∈ inp \/ exists j, j < length inp /\ x = default_label j).
    { intros x Hx. apply elem_of_list_lookup in Hx as [j Hj]. pose proof (lookup_lt_Some _ _ _ Hj) as Hlt. destruct Hde as [El Hde].
      destruct (lookup_lt_is_Some_2 inp j) as [y Hy]; [lia|]. rewrite (Hde j y Hy) in Hj. injection Hj as <-. case_decide; [right; exists j; split; [lia|done]|].
      left. by eapply elem_of_list_lookup_2. }
    assert (Hmem : l ∈ pre <-> l ∈ inp).
    { split.
      - intros Hx. destruct (Hel l Hx) as [|(j & Hj & E)]; [done|]. exfalso. eapply (Hd l j); [done|lia|done].
      - intros Hx. apply elem_of_list_lookup in Hx as [j Hj]. destruct Hde as [El Hde].
        (* the first occurrence keeps its name *)
        destruct (list_find (fun x => x = l) inp) as [[j0 x]|] eqn:Ef.
        + apply list_find_Some in Ef as (H1 & -> & H3). specialize (Hde j0 l H1). rewrite decide_False in Hde; [by eapply elem_of_list_lookup_2|].
          intros Hin. apply elem_of_list_lookup in Hin as [k Hk]. pose proof (lookup_lt_Some _ _ _ Hk) as Hlt. rewrite take_length in Hlt.
          rewrite lookup_take in Hk by lia. eapply (H3 k l); [done|lia|done].
        + apply list_find_None in Ef. rewrite Forall_forall in Ef. exfalso. eapply Ef; [by eapply elem_of_list_lookup_2|done]. }
    set (l' := match m !! l with Some _ => default_label (length inp) | None => l end).
    assert (Hl' : l' = if decide (l ∈ inp) then default_label (length inp) else l).
    { unfold l'. destruct (m !! l) as [k|] eqn:E.
      - rewrite decide_True; [done|]. apply Hmem. apply Hm in E. by eapply elem_of_list_lookup_2.
      - rewrite decide_False; [done|]. rewrite <- Hmem. by apply (describes_None m pre l Hm). }
    assert (Hnew : l' ∉ pre).
    { rewrite Hl'. case_decide as Hi.
      - intros Hx. destruct (Hel _ Hx) as [Hx'|(j & Hj & E)].
        + eapply (Hd (default_label (length inp)) (length inp)); [|done|done]. rewrite Hall. apply elem_of_app. by left.
        + apply default_label_inj in E. lia.
      - by rewrite Hmem. }
    assert (Hlen : length pre = length inp) by apply Hde.
    specialize (IH (<[l' := length inp]> m) (pre ++ [l']) (inp ++ [l])).
    rewrite app_length in IH. simpl in IH. destruct (init_dedup (<[l' := length inp]> m) (length inp + 1) ls) as [ls' m'].
    replace (pre ++ l' :: ls') with ((pre ++ [l']) ++ ls') by (by rewrite <- app_assoc). apply IH.
    + by rewrite <- app_assoc.
    + rewrite <- Hlen. by apply describes_snoc.
    + apply NoDup_app. split; [done|]. split; [|apply NoDup_singleton]. intros x Hx Hl. apply elem_of_list_singleton in Hl as ->. done.
    + split; [rewrite !app_length; simpl; lia|]. intros i x Hx. apply lookup_snoc_Some in Hx as [[Hlt Hx]|[-> ->]].
      * rewrite lookup_app_l by lia. rewrite take_app_le by lia. by apply Hde.
      * rewrite <- Hlen. rewrite list_lookup_middle by done. rewrite Hl', Hlen. rewrite take_app. done.
Qed.

Definition selected {A} (idxs : list nat) (src sel : list A) : Prop :=
  length sel = length idxs /\ forall k i, idxs !! k = Some i -> sel !! k = src !! i.

Lemma frame_select_shape src rl ru idxs : length (f_labels src) = length (f_cols src) ->
  (valid_bounds rl ru (f_rows src) /\ Forall (fun i => i < length (f_cols src)) idxs ->
   exists ls cols, selected idxs (f_labels src) ls /\ selected idxs (f_cols src) cols /\
     frame_select src rl ru idxs = Ok (mkF (Z.to_nat (ru - rl)) ((fun c => mkCol (c_type c) (c_id c) (c_off c + Z.to_nat rl)) <$> cols)
        (fst (init_dedup ∅ 0 ls)) (snd (init_dedup ∅ 0 ls)))) /\
  (~ (valid_bounds rl ru (f_rows src) /\ Forall (fun i => i < length (f_cols src)) idxs) -> frame_select src rl ru idxs = Throw).
Proof.
  intros Hlab. unfold frame_select.
  assert (Hfb : forallb (fun i => bool_decide (i < length (f_cols src))) idxs = true <-> Forall (fun i => i < length (f_cols src)) idxs).
  { rewrite forallb_forall, Forall_forall. setoid_rewrite <- elem_of_list_In. setoid_rewrite bool_decide_eq_true. done. }
  split.
  - intros [Hv HF]. rewrite (proj2 (bad_range_spec _ _ _) Hv), (proj2 Hfb HF).
    exists ((fun i => default ""%string (f_labels src !! i)) <$> idxs), ((fun i => default (mkCol 0 0 0) (f_cols src !! i)) <$> idxs).
    rewrite Forall_forall in HF. split; [|split].
    + split; [by rewrite fmap_length|]. intros k i Hk. rewrite list_lookup_fmap, Hk. simpl.
      destruct (lookup_lt_is_Some_2 (f_labels src) i) as [x ->]; [|done]. rewrite Hlab. apply HF. by eapply elem_of_list_lookup_2.
    + split; [by rewrite fmap_length|]. intros k i Hk. rewrite list_lookup_fmap, Hk. simpl.
      destruct (lookup_lt_is_Some_2 (f_cols src) i) as [x ->]; [|done]. apply HF. by eapply elem_of_list_lookup_2.
    + by destruct (init_dedup _ _ _).
  - intros Hn. destruct (bad_range rl ru (f_rows src)) eqn:E1; [done|]. destruct (forallb _ idxs) eqn:E2; [|done].
    exfalso. apply Hn. split; [by apply bad_range_spec|by apply Hfb].
Qed.

Theorem C17_select_dedup src rl ru idxs f ls : length (f_labels src) = length (f_cols src) ->
  frame_select src rl ru idxs = Ok f -> selected idxs (f_labels src) ls ->
  (forall l i, l ∈ ls -> i < length ls -> l <> default_label i) ->
  deduplicated ls (f_labels f) /\ labels_work f.
Proof.
  intros Hlab E Hs Hd. destruct (frame_select_shape src rl ru idxs Hlab) as [H1 H2].
  assert (Hv : valid_bounds rl ru (f_rows src) /\ Forall (fun i => i < length (f_cols src)) idxs).
  { destruct (decide (bad_range rl ru (f_rows src) = false)) as [Hb|Hb].
    - unfold frame_select in E. rewrite Hb in E. destruct (forallb _ idxs) eqn:Ef; [|done].
      split; [by apply bad_range_spec|]. rewrite forallb_forall in Ef. apply Forall_forall. intros i Hi. apply elem_of_list_In in Hi. specialize (Ef i Hi).
      by apply bool_decide_eq_true in Ef.
    - unfold frame_select in E. destruct (bad_range rl ru (f_rows src)); [done|]. done. }
  destruct (H1 Hv) as (ls2 & cols & Hs2 & Hc & E2). rewrite E in E2. injection E2 as ->.
  assert (ls2 = ls) as ->.
  { apply list_eq. intros k. destruct (decide (k < length idxs)) as [Hk|Hk].
    - destruct (lookup_lt_is_Some_2 idxs k Hk) as [i Hi]. destruct Hs as [_ Hs], Hs2 as [_ Hs2]. by rewrite (Hs k i Hi), (Hs2 k i Hi).
    - destruct Hs as [L1 _], Hs2 as [L2 _]. rewrite !lookup_ge_None_2 by lia. done. }
  pose proof (init_dedup_spec ls ls Hd ∅ [] [] eq_refl describes_nil ltac:(constructor) ltac:(split; [done|]; intros i l Hl; done)) as H. simpl in H.
  destruct (init_dedup ∅ 0 ls) as [ls' m']. simpl. destruct H as (Hnd & Hm & Hde). split; [done|]. by apply describes_works.
Qed.
(** In general they do not: selecting column 1 twice from a frame with default labels gives two columns named "col_1". *)
Theorem C17_select_dedup_refuted :
  exists src f, frame_new 1 [mkCol 0 0 0; mkCol 0 1 0] None = Ok src /\ frame_select src 0 1 [1; 1] = Ok f /\
    f_labels f = ["col_1"; "col_1"]%string /\ ~ labels_work f.
Proof.
  eexists _, _. split; [vm_compute; reflexivity|]. split; [vm_compute; reflexivity|]. split; [vm_compute; reflexivity|].
  intros [Hn _]. simpl in Hn. apply NoDup_cons in Hn as [Hn _]. apply Hn, elem_of_list_here.
Qed.

(** C40. Cells: a selection shows exactly the selected rows and columns of the source frame, also after writes to the shared buffers;
    concatenation shows the columns of both operands. [heap] is the state of all buffers. *)
Theorem C40_select_cells {V} (heap : list (list V)) src rl ru idxs f ty r c i : length (f_labels src) = length (f_cols src) ->
  frame_select src rl ru idxs = Ok f -> idxs !! c = Some i -> r < f_rows f ->
  frame_get heap f ty r c = frame_get heap src ty (Z.to_nat rl + r) i.
Proof.
  intros Hlab E Hc Hr. destruct (frame_select_shape src rl ru idxs Hlab) as [H1 H2].
  assert (Hv : valid_bounds rl ru (f_rows src) /\ Forall (fun i => i < length (f_cols src)) idxs).
  { unfold frame_select in E. destruct (bad_range rl ru (f_rows src)) eqn:Hb; [done|]. destruct (forallb _ idxs) eqn:Ef; [|done].
    split; [by apply bad_range_spec|]. rewrite forallb_forall in Ef. apply Forall_forall. intros j Hi. apply elem_of_list_In in Hi. specialize (Ef j Hi).
    by apply bool_decide_eq_true in Ef. }
  destruct (H1 Hv) as (ls2 & cols & Hs2 & [_ Hcs] & E2). rewrite E in E2. injection E2 as ->. simpl in Hr.
  unfold frame_get. simpl. unfold rd at 1 4. rewrite list_lookup_fmap, (Hcs c i Hc).
  destruct (f_cols src !! i) as [col|]; simpl; [|done]. destruct (decide (ty = c_type col)); [|done]. rewrite (decide_True (P := r < _)) by done.
  destruct Hv as [Hv _]. unfold valid_bounds in Hv. rewrite decide_True by lia.
  destruct (rd heap (c_id col)); [|done|done]. simpl. f_equal. lia.
Qed.
Theorem C40_select_shape src rl ru idxs f : length (f_labels src) = length (f_cols src) ->
  frame_select src rl ru idxs = Ok f -> f_rows f = Z.to_nat (ru - rl) /\ length (f_cols f) = length idxs.
Proof.
  intros Hlab E. unfold frame_select in E. destruct (bad_range _ _ _); [done|]. destruct (forallb _ _); [|done].
  destruct (init_dedup _ _ _). injection E as <-. simpl. split; [done|]. by rewrite !fmap_length.
Qed.
Theorem C40_select_rejects src rl ru idxs : length (f_labels src) = length (f_cols src) ->
  frame_select src rl ru idxs = Throw <-> ~ (valid_bounds rl ru (f_rows src) /\ Forall (fun i => i < length (f_cols src)) idxs).
Proof.
  intros Hlab. destruct (frame_select_shape src rl ru idxs Hlab) as [H1 H2]. split; [|apply H2].
  intros E Hv. destruct (H1 Hv) as (ls & cols & _ & _ & E2). congruence.
Qed.
Theorem C40_slice_cells {V} (heap : list (list V)) src rl ru cl cu f ty r c : length (f_labels src) = length (f_cols src) ->
  frame_slice src rl ru cl cu = Ok f -> r < f_rows f -> c < cu - cl ->
  f_rows f = ru - rl /\ length (f_cols f) = cu - cl /\ frame_get heap f ty r c = frame_get heap src ty (rl + r) (cl + c).
Proof.
  unfold frame_slice. intros Hlab. case_decide; [done|]. intros E Hr Hc. pose proof (C40_select_shape _ _ _ _ _ Hlab E) as [E1 E2].
  split; [lia|]. split; [by rewrite E2, seq_length|]. rewrite (C40_select_cells heap src _ _ _ f ty r c (cl + c) Hlab E); [by rewrite Nat2Z.id|by apply lookup_seq_lt|done].
Qed.
Theorem C40_cbind_cells {V} (heap : list (list V)) lhs rhs f ty r c : frame_cbind lhs rhs = Ok f ->
  frame_get heap f ty r c = if decide (c < length (f_cols lhs)) then frame_get heap lhs ty r c else frame_get heap rhs ty r (c - length (f_cols lhs)).
Proof.
  unfold frame_cbind. case_decide as Hr; [|done]. destruct (init_labels _ _ _); simpl; [|done|done]. intros [= <-]. unfold frame_get, rd. simpl.
  destruct (decide (c < length (f_cols lhs))) as [Hc|Hc]; [rewrite lookup_app_l by done; reflexivity|]. rewrite lookup_app_r by lia. by rewrite Hr.
Qed.

Example C17_example :
  exists src f, frame_new 3 [mkCol 0 0 0; mkCol 0 1 0; mkCol 1 2 0] (Some ["a"; "b"; "c"]%string) = Ok src /\ frame_select src 1 3 [2; 0; 2] = Ok f /\
    f_labels f = ["c"; "a"; "col_2"]%string /\ frame_column_idx f "col_2" = Ok 2 /\ frame_column_idx f "b" = Throw.
Proof. eexists _, _. repeat split; vm_compute; reflexivity. Qed.
Example C40_example :
  exists src f, frame_new 3 [mkCol 0 0 0; mkCol 0 1 0] None = Ok src /\ frame_slice src 1 3 1 2 = Ok f /\
    frame_get [[1; 2; 3]; [4; 5; 6]] f 0 1 0 = Ok 6 /\ frame_slice src 3 3 0 1 = Throw.
Proof. eexists _, _. repeat split; vm_compute; reflexivity. Qed.

Print Assumptions C17_create.
Print Assumptions C17_create_default.
Print Assumptions C17_cbind.
Print Assumptions C17_set_labels.
Print Assumptions C17_rejected_set_labels_refuted.
Print Assumptions C17_select_dedup.
Print Assumptions C17_select_dedup_refuted.
Print Assumptions C40_select_cells.
Print Assumptions C40_select_rejects.
Print Assumptions C40_slice_cells.
Print Assumptions C40_cbind_cells.
