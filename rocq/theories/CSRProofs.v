(** Lemmas on the CSR model. *)
From stdpp Require Import base list sorting.
From Coq Require Import Lia.
From Verif Require Import CppBase CSRModel CSRSpec.

Lemma lower_bound_spec fuel cols first len c :
  len <= fuel -> first + len <= length cols ->
  (forall i j x y, first <= i -> i <= j -> j < first + len -> cols !! i = Some x -> cols !! j = Some y -> x <= y) ->
  exists p, lower_bound fuel cols first len c = Ok p /\ first <= p <= first + len /\
    (forall i x, first <= i < p -> cols !! i = Some x -> x < c) /\
    (forall i x, p <= i < first + len -> cols !! i = Some x -> c <= x).
Proof.
  revert first len. induction fuel as [|fuel IH]; intros first len Hf Hl Hs; cbn [lower_bound].
  - assert (len = 0) as -> by lia. simpl. exists first. repeat split; try lia.
  - case_decide as E.
    + subst. exists first. repeat split; try lia.
    + assert (Hh : len / 2 < len) by (apply Nat.div_lt; lia).
      destruct (rd_lt cols (first + len / 2)) as (x & Hx & ->); [lia|]. cbn [obind].
      case_decide as Ex.
      * destruct (IH (first + len / 2 + 1) (len - len / 2 - 1)) as (p & -> & Hp & H1 & H2); [lia|lia| |].
        { intros i j y z Hi Hij Hj. apply Hs; lia. }
        exists p. split; [done|]. split; [lia|]. split.
        { intros i y Hi Hy. destruct (decide (i <= first + len / 2)).
          - assert (y <= x) by (eapply (Hs i (first + len / 2)); [lia|lia|lia|done|done]). lia.
          - apply (H1 i); [lia|done]. }
        { intros i y Hi. apply H2. lia. }
      * destruct (IH first (len / 2)) as (p & -> & Hp & H1 & H2); [lia|lia| |].
        { intros i j y z Hi Hij Hj. apply Hs; lia. }
        exists p. split; [done|]. split; [lia|]. split; [done|].
        intros i y Hi Hy. destruct (decide (i < first + len / 2)); [apply (H2 i); [lia|done]|].
        assert (x <= y) by (eapply (Hs (first + len / 2) i); [lia|lia|lia|done|done]). lia.
Qed.

Lemma sorted_lookup_le (l : list nat) i j x y : StronglySorted lt l -> i <= j -> l !! i = Some x -> l !! j = Some y -> x <= y.
Proof.
  revert i j. induction l as [|z l IH]; intros i j Hs Hij Hi Hj; [done|].
  inversion Hs as [|? ? Hs' Hall]; subst. destruct i as [|i], j as [|j]; simpl in *; try lia.
  - assert (x = y) by congruence. lia.
  - injection Hi as ->. rewrite Forall_forall in Hall. specialize (Hall y). apply elem_of_list_lookup_2 in Hj. apply Hall in Hj. lia.
  - apply (IH i j); auto; lia.
Qed.

Lemma lower_bound_row (A l B : list nat) c fuel :
  StronglySorted lt l -> length l <= fuel ->
  exists k, k <= length l /\ lower_bound fuel (A ++ l ++ B) (length A) (length l) c = Ok (length A + k) /\
    Forall (fun x => x < c) (take k l) /\ Forall (fun x => c <= x) (drop k l).
Proof.
  intros Hs Hf. destruct (lower_bound_spec fuel (A ++ l ++ B) (length A) (length l) c) as (p & E & Hp & H1 & H2); [done| | |].
  - rewrite !app_length. lia.
  - intros i j x y Hi Hij Hj. rewrite !(lookup_app_r A) by lia. rewrite !(lookup_app_l l) by lia.
    apply sorted_lookup_le; [done|lia].
  - exists (p - length A). split; [lia|]. split; [rewrite E; f_equal; lia|]. split; apply Forall_lookup_2.
    + intros i x Hx. apply lookup_take_Some in Hx as [Hx Hi]. apply (H1 (length A + i)); [lia|].
      rewrite lookup_app_r by lia. replace (length A + i - length A) with i by lia. rewrite lookup_app_l; [done|lia].
    + intros i x Hx. rewrite lookup_drop in Hx. assert (p - length A + i < length l) by (by apply lookup_lt_Some in Hx).
      apply (H2 (p + i)); [lia|]. rewrite lookup_app_r by lia. rewrite lookup_app_l by lia.
      rewrite <- Hx. f_equal. lia.
Qed.

(** The shifting loops. *)
Lemma shift_right_spec {A} (B M J : list A) x beg posEnd posExp :
  length B = beg + posExp -> length M = posEnd - posExp -> posExp <= posEnd ->
  exists z, shift_right beg posEnd posExp (B ++ M ++ x :: J) = Ok (B ++ z :: M ++ J).
Proof.
  revert x J posEnd. induction M as [|y M IH] using rev_ind; intros x J posEnd HB HM Hle; unfold shift_right, for_down.
  - simpl in HM. replace (posEnd - posExp) with 0 by lia. simpl. by exists x.
  - rewrite app_length in HM. simpl in HM. replace (posEnd - posExp) with (S (posEnd - 1 - posExp)) by lia.
    cbn [forn_down].
    rewrite (rd_Ok _ _ y).
    2:{ rewrite lookup_app_r by lia. rewrite lookup_app_l by (rewrite app_length; simpl; lia).
        rewrite lookup_app_r by lia. replace (beg + (posEnd - 1) - length B - length M) with 0 by lia. done. }
    cbn [obind]. rewrite wr_Ok by (rewrite !app_length; simpl; lia). cbn [obind].
    destruct (IH y (y :: J) (posEnd - 1)) as (z & E); [done|lia|lia|].
    exists z. unfold shift_right, for_down in E.
    rewrite insert_app_r_alt by lia. rewrite insert_app_r_alt by (rewrite app_length; simpl; lia).
    replace (beg + posEnd - length B - length (M ++ [y])) with 0 by (rewrite app_length; simpl; lia). simpl.
    rewrite <- !app_assoc in *. simpl. rewrite E. done.
Qed.
Lemma shift_left_spec {A} (B M J : list A) x y beg posEnd posExp :
  length B = beg + posExp -> posEnd = posExp + 1 + length M ->
  shift_left beg posExp posEnd (B ++ x :: M ++ y :: J) = Ok (B ++ M ++ y :: y :: J).
Proof.
  revert B x posExp. induction M as [|m M IH]; intros B x posExp HB ->; unfold shift_left, for_up.
  - simpl. replace (posExp + 1 + 0 - posExp) with 1 by lia. cbn [forn].
    rewrite (rd_Ok _ _ y). 2:{ rewrite lookup_app_r by lia. replace (beg + (posExp + 1) - length B) with 1 by lia. done. }
    cbn [obind]. rewrite wr_Ok by (rewrite app_length; simpl; lia). cbn [obind].
    rewrite insert_app_r_alt by lia. replace (beg + posExp - length B) with 0 by lia. done.
  - cbn [length app]. replace (posExp + 1 + S (length M) - posExp) with (S (posExp + 1 + 1 + length M - (posExp + 1))) by lia. cbn [forn].
    rewrite (rd_Ok _ _ m). 2:{ rewrite lookup_app_r by lia. replace (beg + (posExp + 1) - length B) with 1 by lia. done. }
    cbn [obind]. rewrite wr_Ok by (rewrite app_length; simpl; rewrite app_length; simpl; lia). cbn [obind].
    rewrite insert_app_r_alt by lia. replace (beg + posExp - length B) with 0 by lia. simpl.
    specialize (IH (B ++ [m]) m (posExp + 1)). rewrite app_length in IH. simpl in IH.
    replace (S posExp) with (posExp + 1) by lia.
    unfold shift_left, for_up in IH. rewrite <- !app_assoc in IH. cbn [app] in IH.
    replace (posExp + 1 + 1 + length M - (posExp + 1)) with (posExp + 1 + S (length M) - (posExp + 1)) by lia.
    rewrite IH; [done|lia|lia].
Qed.
(** The loops over the row offsets. *)
Lemma upd_suffix (g : nat -> nat) off lo hi (A B : list nat) :
  length A = off + lo -> length B = hi - lo -> lo <= hi ->
  for_up lo hi (fun i ro => let* x := rd ro (off + i) in wr ro (off + i) (g x)) (A ++ B) = Ok (A ++ (g <$> B)).
Proof.
  revert lo A. unfold for_up. induction B as [|y B IH]; intros lo A HA HB Hle; simpl in HB.
  - replace (hi - lo) with 0 by lia. done.
  - replace (hi - lo) with (S (hi - (S lo))) by lia. cbn [forn].
    rewrite (rd_Ok _ _ y). 2:{ rewrite lookup_app_r by lia. replace (off + lo - length A) with 0 by lia. done. }
    cbn [obind]. rewrite wr_Ok by (rewrite app_length; simpl; lia). cbn [obind].
    rewrite insert_app_r_alt by lia. replace (off + lo - length A) with 0 by lia. simpl.
    specialize (IH (S lo) (A ++ [g y])). rewrite app_length in IH. simpl in IH. rewrite <- !app_assoc in IH. simpl in IH.
    rewrite IH; [done|lia|lia|lia].
Qed.

Section proofs.
Context {V : Type} `{Val V}.
Implicit Types (rows pre post : list (row V)) (l : row V).

Fixpoint offs_init (k : nat) rows : list nat :=
  match rows with [] => [] | l :: rs => k :: offs_init (k + length l) rs end.
Lemma offsets_app k pre post : offsets k (pre ++ post) = offs_init k pre ++ offsets (k + length (concat pre)) post.
Proof.
  revert k. induction pre as [|l pre IH]; intros k; simpl; [by rewrite Nat.add_0_r|].
  rewrite IH. rewrite app_length. by replace (k + length l + length (concat pre)) with (k + (length l + length (concat pre))) by lia.
Qed.
Lemma offs_init_length k pre : length (offs_init k pre) = length pre.
Proof. revert k. induction pre; intros; simpl; auto. Qed.
Lemma offsets_length k rows : length (offsets k rows) = length rows + 1.
Proof. revert k. induction rows as [|l rows IH]; intros; simpl; [done|]. by rewrite IH. Qed.
Lemma offsets_lookup k rows i : i <= length rows -> offsets k rows !! i = Some (k + length (concat (take i rows))).
Proof.
  revert k i. induction rows as [|l rows IH]; intros k [|i] Hi; simpl in *; try lia.
  - by rewrite Nat.add_0_r.
  - by rewrite Nat.add_0_r.
  - rewrite IH by lia. rewrite app_length. f_equal. lia.
Qed.
Lemma offsets_add k n rows : offsets (k + n) rows = (fun x => x + n) <$> offsets k rows.
Proof. revert k. induction rows as [|l rows IH]; intros k; simpl; [done|]. f_equal. rewrite <- IH. f_equal. lia. Qed.

Lemma cell_in_lt c l : Forall (fun x => c < x) (l.*1) -> cell_in c l = vzero.
Proof.
  induction l as [|[k v] l IH]; intros Hf; simpl in *; [done|]. inversion Hf; subst. rewrite decide_False by lia. auto.
Qed.
Lemma cell_in_app c l1 l2 : Forall (fun x => x <> c) (l1.*1) -> cell_in c (l1 ++ l2) = cell_in c l2.
Proof.
  induction l1 as [|[k v] l IH]; intros Hf; simpl in *; [done|]. inversion Hf; subst. rewrite decide_False by done. auto.
Qed.
Lemma cell_in_app_l c l1 l2 : Forall (fun x => x <> c) (l2.*1) -> cell_in c (l1 ++ l2) = cell_in c l1.
Proof.
  intros Hf. induction l1 as [|[k v] l IH]; simpl in *; [|case_decide; auto].
  induction l2 as [|[k v] l2 IH]; simpl in *; [done|]. inversion Hf; subst. rewrite decide_False by done. auto.
Qed.
Lemma cell_in_middle c c' v l1 l2 : c <> c' -> cell_in c' (l1 ++ (c, v) :: l2) = cell_in c' (l1 ++ l2).
Proof. intros Hc. induction l1 as [|[k w] l IH]; simpl; [by rewrite decide_False by congruence|]. by rewrite IH. Qed.

(** Finding a position by lower_bound in a stored row. *)
Lemma find_row (b : csrbuf V) h pre l post r c n :
  stores b (pre ++ l :: post) -> length pre = h_off h + r -> row_ok n l ->
  roff b h r = Ok (length (concat pre)) /\
  roff b h (r + 1) = Ok (length (concat pre) + length l) /\
  exists l1 l2, l = l1 ++ l2 /\ Forall (fun x => x < c) (l1.*1) /\ Forall (fun x => c <= x) (l2.*1) /\
    forall fuel, length l <= fuel ->
      lower_bound fuel (bcols b) (length (concat pre)) (length l) c = Ok (length (concat pre) + length l1).
Proof.
  intros (Ho & rc & rv & Hc & Hv & Hr) Hp [Hs Hn]. unfold roff.
  assert (E0 : broff b !! (h_off h + r) = Some (length (concat pre))).
  { rewrite Ho, offsets_lookup by (rewrite app_length; simpl; lia). rewrite take_app_alt by lia. done. }
  assert (E1 : broff b !! (h_off h + (r + 1)) = Some (length (concat pre) + length l)).
  { rewrite Ho, offsets_lookup by (rewrite app_length; simpl; lia).
    replace (h_off h + (r + 1)) with (length pre + 1) by lia. rewrite take_add_app by done. simpl.
    rewrite concat_app, app_length. simpl. rewrite app_nil_r. done. }
  split; [by apply rd_Ok|]. split; [by apply rd_Ok|].
  rewrite concat_app in Hc. simpl in Hc. rewrite !fmap_app in Hc. rewrite <- !app_assoc in Hc.
  destruct (lower_bound_row ((concat pre).*1) (l.*1) ((concat post).*1 ++ rc) c (length l) Hs) as (k & Hk & E & H1 & H2).
  { by rewrite fmap_length. }
  exists (take k l), (drop k l). split; [by rewrite take_drop|].
  rewrite fmap_length in Hk.
  split; [by rewrite fmap_take|]. split; [by rewrite fmap_drop|].
  intros fuel Hf.
  destruct (lower_bound_row ((concat pre).*1) (l.*1) ((concat post).*1 ++ rc) c fuel Hs) as (k' & Hk' & E' & H1' & H2').
  { by rewrite fmap_length. }
  assert (k' = k) as ->.
  { rewrite fmap_length in Hk'.
    destruct (Nat.lt_total k k') as [?|[?|?]]; [|done|].
    - destruct (lookup_lt_is_Some_2 (l.*1) k) as [x Hx]; [rewrite fmap_length; lia|].
      rewrite Forall_lookup in H1'. rewrite Forall_lookup in H2.
      assert (x < c) by (apply (H1' k); apply lookup_take_Some; split; [done|lia]).
      assert (c <= x) by (apply (H2 0); rewrite lookup_drop, Nat.add_0_r; done). lia.
    - destruct (lookup_lt_is_Some_2 (l.*1) k') as [x Hx]; [rewrite fmap_length; lia|].
      rewrite Forall_lookup in H1. rewrite Forall_lookup in H2'.
      assert (x < c) by (apply (H1 k'); apply lookup_take_Some; split; [done|lia]).
      assert (c <= x) by (apply (H2' 0); rewrite lookup_drop, Nat.add_0_r; done). lia. }
  rewrite Hc. rewrite !fmap_length in E'. rewrite E'. rewrite take_length, Nat.min_l by lia. done.
Qed.

Lemma split_at rows i l : rows !! i = Some l -> exists pre post, rows = pre ++ l :: post /\ length pre = i.
Proof.
  intros Hi. exists (take i rows), (drop (S i) rows). split; [by rewrite take_drop_middle|].
  rewrite take_length. apply lookup_lt_Some in Hi. lia.
Qed.
Lemma stores_cols_lookup (b : csrbuf V) pre l1 e l2 post :
  stores b (pre ++ (l1 ++ e :: l2) :: post) ->
  bcols b !! (length (concat pre) + length l1) = Some (fst e) /\ bvals b !! (length (concat pre) + length l1) = Some (snd e).
Proof.
  intros (Ho & rc & rv & Hc & Hv & Hr). rewrite Hc, Hv, concat_app. simpl. rewrite <- !app_assoc. rewrite !fmap_app. rewrite <- !app_assoc.
  split; (rewrite lookup_app_r by (rewrite fmap_length; lia); rewrite lookup_app_r by (rewrite !fmap_length; lia); rewrite !fmap_length;
  replace (length (concat pre) + length l1 - length (concat pre) - length l1) with 0 by lia; done).
Qed.

Lemma csr_get_spec b h rows r c :
  covers b h rows -> r < h_rows h -> c < h_cols h -> csr_get b h r c = Ok (cell rows (h_off h + r) c).
Proof.
  intros [Hst Hok Hin Hal Hmax] Hr Hc. unfold csr_get. rewrite !decide_False by lia.
  destruct (lookup_lt_is_Some_2 rows (h_off h + r)) as [l Hl]; [lia|].
  unfold cell. rewrite Hl. assert (Hlok : row_ok (h_cols h) l) by (eapply Forall_lookup_1; eauto).
  destruct (split_at _ _ _ Hl) as (pre & post & -> & Hp).
  destruct (find_row b h pre l post r c (h_cols h) Hst Hp Hlok) as (-> & -> & l1 & l2 & -> & H1 & H2 & Hlb). cbn [obind].
  replace (length (concat pre) + length (l1 ++ l2) - length (concat pre)) with (length (l1 ++ l2)) by lia.
  rewrite Hlb by done. cbn [obind]. rewrite app_length.
  rewrite cell_in_app by (eapply Forall_impl; [exact H1|]; simpl; lia).
  destruct l2 as [|[k v] l2].
  - simpl. rewrite decide_True by lia. done.
  - rewrite decide_False by (simpl; lia). destruct (stores_cols_lookup b pre l1 (k, v) l2 post Hst) as [E1 E2]. simpl in E1, E2.
    rewrite (rd_Ok _ _ _ E1). cbn [obind]. simpl. case_decide as Hk; [|].
    + rewrite decide_False by done. rewrite cell_in_lt; [done|]. destruct Hlok as [Hs _]. rewrite fmap_app in Hs.
      apply StronglySorted_app_inv_r in Hs. simpl in Hs. apply StronglySorted_inv in Hs as [_ Hs]. simpl in H2.
      inversion H2; subst. eapply Forall_impl; [exact Hs|]. simpl. lia.
    + assert (k = c) by lia. rewrite decide_True by done. by rewrite (rd_Ok _ _ _ E2).
Qed.

Lemma ss_app (l1 l2 : list nat) :
  StronglySorted lt (l1 ++ l2) <-> StronglySorted lt l1 /\ StronglySorted lt l2 /\ Forall (fun x => Forall (lt x) l2) l1.
Proof.
  induction l1 as [|x l1 IH]; simpl.
  - split; [intros; repeat split; auto; constructor|tauto].
  - split.
    + intros Hs. apply StronglySorted_inv in Hs as [Hs Hx]. apply IH in Hs as (H1 & H2 & H3).
      apply Forall_app in Hx as [Hx1 Hx2]. repeat split; auto; constructor; auto.
    + intros (H1 & H2 & H3). apply StronglySorted_inv in H1 as [H1 Hx]. inversion H3; subst.
      constructor; [by apply IH|]. apply Forall_app; auto.
Qed.

Lemma stores_replace (b : csrbuf V) pre l l' post vs cs :
  stores b (pre ++ l :: post) ->
  (exists rc rv, cs = (concat (pre ++ l' :: post)).*1 ++ rc /\ vs = (concat (pre ++ l' :: post)).*2 ++ rv /\ length rc = length rv) ->
  stores (mkBuf vs cs (offs_init 0 pre ++ length (concat pre) :: offsets (length (concat pre) + length l') post)) (pre ++ l' :: post).
Proof.
  intros _ (rc & rv & E1 & E2 & E3). split; simpl.
  - rewrite offsets_app. done.
  - by exists rc, rv.
Qed.

Lemma insert_split pre l l' post i : length pre = i -> <[i := l']> (pre ++ l :: post) = pre ++ l' :: post.
Proof. intros <-. rewrite insert_app_r_alt by lia. by rewrite Nat.sub_diag. Qed.

Lemma stored_lookup_alloc b h rows : covers b h rows -> roff b h (h_alloc h) = Ok (stored rows).
Proof.
  intros [Hst Hok Hin Hal Hmax]. unfold roff. apply rd_Ok. destruct Hst as [-> _]. rewrite Hal.
  rewrite offsets_lookup by lia. by rewrite take_ge.
Qed.

Lemma csr_set_spec b h rows r c v :
  covers b h rows -> r < h_rows h -> c < h_cols h -> stored rows < h_max h ->
  exists b' l', csr_set b h r c v = Ok b' /\ covers b' h (<[h_off h + r := l']> rows) /\
    (forall c', cell_in c' l' = if decide (c' = c) then (if viszero v then vzero else v) else cell rows (h_off h + r) c') /\
    (no_zeros rows -> no_zeros (<[h_off h + r := l']> rows)) /\
    length l' <= S (length (default [] (rows !! (h_off h + r)))).
Proof.
  intros Hcov Hr Hc Hcap. pose proof (stored_lookup_alloc _ _ _ Hcov) as Halloc.
  destruct Hcov as [Hst Hok Hin Hal Hmax]. unfold csr_set. rewrite !decide_False by lia.
  destruct (lookup_lt_is_Some_2 rows (h_off h + r)) as [l Hl]; [lia|].
  assert (Hlok : row_ok (h_cols h) l) by (eapply Forall_lookup_1; eauto).
  unfold cell. rewrite Hl. simpl.
  destruct (split_at _ _ _ Hl) as (pre & post & -> & Hp).
  destruct (find_row b h pre l post r c (h_cols h) Hst Hp Hlok) as (-> & -> & l1 & l2 & -> & H1 & H2 & Hlb). cbn [obind].
  replace (length (concat pre) + length (l1 ++ l2) - length (concat pre)) with (length (l1 ++ l2)) by lia.
  rewrite Hlb by done. cbn [obind]. rewrite Halloc. cbn [obind].
  unfold stored in *. rewrite concat_app in *. simpl in Hcap, Halloc |- *. rewrite !app_length in Hcap. rewrite !app_length.
  replace (length (concat pre) + length l1 - length (concat pre)) with (length l1) by lia.
  replace (length (concat pre) + (length l1 + length l2 + length (concat post)) - length (concat pre))
     with (length l1 + length l2 + length (concat post)) by lia.
  assert (Hl1 : Forall (fun x => x <> c) (l1.*1)) by (eapply Forall_impl; [exact H1|]; simpl; lia).
  assert (Hro : broff b = offs_init 0 pre ++ length (concat pre) :: offsets (length (concat pre) + (length l1 + length l2)) post).
  { destruct Hst as [-> _]. rewrite offsets_app. simpl. by rewrite app_length. }
  pose proof Hst as (_ & rc & rv & Hcs & Hvs & Hrl).
  rewrite concat_app in Hcs, Hvs. simpl in Hcs, Hvs. rewrite !fmap_app in Hcs. rewrite !fmap_app in Hvs. rewrite <- !app_assoc in Hcs, Hvs.
  assert (Hlen : length (bvals b) = length (concat pre) + (length l1 + length l2 + length (concat post)) + length rv).
  { rewrite Hvs. rewrite !app_length, !fmap_length. lia. }
  assert (exists vx rv', rv = vx :: rv') as (vx & rv' & ->) by (destruct rv; [simpl in Hlen; lia|eauto]).
  assert (exists cx rc', rc = cx :: rc') as (cx & rc' & ->) by (destruct rc; [done|eauto]).
  simpl in Hrl. injection Hrl as Hrl.
  assert (Hokpp : Forall (row_ok (h_cols h)) pre /\ Forall (row_ok (h_cols h)) post).
  { apply Forall_app in Hok as [? Hx]. inversion Hx; auto. }
  assert (Hgoal : forall vs cs l', row_ok (h_cols h) l' -> length vs = length (bvals b) ->
    (exists rc rv, cs = (concat (pre ++ l' :: post)).*1 ++ rc /\ vs = (concat (pre ++ l' :: post)).*2 ++ rv /\ length rc = length rv) ->
    covers (mkBuf vs cs (offs_init 0 pre ++ length (concat pre) :: offsets (length (concat pre) + length l') post)) h (pre ++ l' :: post)).
  { intros vs cs l' Hl' Hvl Hx. split; simpl.
    - eapply stores_replace; eauto.
    - destruct Hokpp. apply Forall_app; split; [done|]. by constructor.
    - done.
    - rewrite Hal. rewrite !app_length. done.
    - lia. }
  assert (Hdec : (exists w l2', l2 = (c, w) :: l2') \/ ~ (exists w l2', l2 = (c, w) :: l2')).
  { destruct l2 as [|[k w] l2']; [right; intros (? & ? & ?); done|].
    destruct (decide (k = c)) as [->|]; [left; eauto|right; intros (? & ? & ?); congruence]. }
  destruct Hdec as [(w & l2' & ->)|Habs].
  - (* present *)
    rewrite decide_False by (simpl; lia). destruct (stores_cols_lookup b pre l1 (c, w) l2' post Hst) as [E1 E2]. simpl in E1, E2.
    rewrite (rd_Ok _ _ _ E1). cbn [obind]. rewrite bool_decide_eq_false_2 by tauto.
    destruct Hlok as [Hs Hn]. rewrite fmap_app in Hs, Hn. simpl in Hs, Hn.
    apply ss_app in Hs as (Hs1 & Hs2 & Hs3). apply StronglySorted_inv in Hs2 as [Hs2 Hs2'].
    apply Forall_app in Hn as [Hn1 Hn2]. inversion Hn2 as [|? ? Hnc Hn2']; subst.
    destruct (viszero v) eqn:Ez.
    + (* close gap *)
      rewrite Hvs, Hcs. rewrite !fmap_cons. cbn [length fst snd app].
      replace (length l1 + S (length l2') + length (concat post)) with (length l1 + 1 + length (l2' ++ concat post)) by (rewrite app_length; lia).
      pose proof (shift_left_spec ((concat pre).*2 ++ l1.*2) ((l2' ++ concat post).*2) rv' w vx (length (concat pre))
        (length l1 + 1 + length (l2' ++ concat post)) (length l1)) as Ev.
      pose proof (shift_left_spec ((concat pre).*1 ++ l1.*1) ((l2' ++ concat post).*1) rc' c cx (length (concat pre))
        (length l1 + 1 + length (l2' ++ concat post)) (length l1)) as Ec.
      rewrite fmap_app in Ev. rewrite fmap_app in Ec. rewrite <- !app_assoc in Ev, Ec.
      rewrite Ev by (rewrite ?app_length, ?fmap_length, ?app_length; lia). cbn [obind].
      rewrite Ec by (rewrite ?app_length, ?fmap_length, ?app_length; lia). cbn [obind].
      rewrite Hro.
      pose proof (upd_suffix (fun x => x - 1) (h_off h) (r + 1) (h_alloc h + 1)
        (offs_init 0 pre ++ [length (concat pre)]) (offsets (length (concat pre) + (length l1 + length ((c, w) :: l2'))) post)) as Er.
      rewrite <- app_assoc in Er. simpl in Er |- *.
      rewrite Er; [|rewrite app_length, offs_init_length; simpl; lia|rewrite offsets_length; rewrite app_length in Hal; simpl in Hal; lia|lia].
      cbn [obind].
      replace (length (concat pre) + (length l1 + S (length l2'))) with (length (concat pre) + length (l1 ++ l2') + 1) by (rewrite app_length; lia).
      rewrite offsets_add. rewrite <- list_fmap_compose.
      assert (((λ x : nat, x - 1) ∘ (λ x : nat, x + 1)) <$> offsets (length (concat pre) + length (l1 ++ l2')) post
         = offsets (length (concat pre) + length (l1 ++ l2')) post) as ->.
      { rewrite <- (list_fmap_id (offsets _ _)) at 2. apply list_fmap_ext. intros. simpl. lia. }
      eexists _, (l1 ++ l2'). split; [done|]. rewrite insert_split by done. split; [|split; [|split]].
      * rewrite <- (app_assoc (offs_init 0 pre)). cbn [app]. apply Hgoal.
        { split; rewrite fmap_app; [apply ss_app; repeat split; auto|apply Forall_app; auto].
          eapply Forall_impl; [exact Hs3|]. simpl. intros x Hx. by inversion Hx. }
        { rewrite Hlen. simpl. rewrite !app_length, !fmap_length. simpl. lia. }
        { exists (cx :: cx :: rc'), (vx :: vx :: rv'). rewrite concat_app. simpl. rewrite !fmap_app. rewrite <- !app_assoc.
          simpl. rewrite Hrl. done. }
      * intros c'. case_decide as Ec'.
        { subst. rewrite cell_in_app by done. rewrite cell_in_lt; done. }
        { by rewrite cell_in_middle by congruence. }
      * intros Hz. unfold no_zeros in *. apply Forall_app in Hz as [Hz1 Hz2]. inversion Hz2 as [|? ? Hz3 Hz4]; subst.
        apply Forall_app; split; [done|]. constructor; [|done]. apply Forall_app in Hz3 as [Hz3 Hz5]. inversion Hz5; subst. apply Forall_app; auto.
      * simpl. rewrite !app_length. simpl. lia.
    + (* overwrite *)
      rewrite wr_Ok by (rewrite Hlen; simpl; lia). cbn [obind].
      eexists _, (l1 ++ (c, v) :: l2'). split; [done|]. rewrite insert_split by done. split; [|split; [|split]].
      * assert (Eb : broff b = offs_init 0 pre ++ length (concat pre) :: offsets (length (concat pre) + length (l1 ++ (c, v) :: l2')) post).
        { rewrite Hro. rewrite app_length. done. }
        rewrite Eb. apply Hgoal.
        { split; rewrite fmap_app; simpl; [apply ss_app; repeat split; auto; by constructor|apply Forall_app; split; [done|by constructor]]. }
        { by rewrite insert_length. }
        { exists (cx :: rc'), (vx :: rv'). rewrite concat_app. simpl. rewrite !fmap_app. rewrite <- !app_assoc. simpl.
          split; [rewrite Hcs; simpl; done|]. split; [|simpl; lia].
          rewrite Hvs. simpl. rewrite insert_app_r_alt by (rewrite fmap_length; lia).
          rewrite insert_app_r_alt by (rewrite !fmap_length; lia). rewrite !fmap_length.
          replace (length (concat pre) + length l1 - length (concat pre) - length l1) with 0 by lia. done. }
      * intros c'. case_decide as Ec'.
        { subst. rewrite cell_in_app by done. simpl. by rewrite decide_True. }
        { by rewrite !cell_in_middle by congruence. }
      * intros Hz. unfold no_zeros in *. apply Forall_app in Hz as [Hz1 Hz2]. inversion Hz2 as [|? ? Hz3 Hz4]; subst.
        apply Forall_app; split; [done|]. constructor; [|done]. apply Forall_app in Hz3 as [Hz3 Hz5]. inversion Hz5; subst. apply Forall_app; auto.
      * simpl. rewrite !app_length. simpl. lia.
  - (* absent *)
    assert (Hl2 : Forall (fun x => c < x) (l2.*1)).
    { destruct l2 as [|[k w] l2']; [constructor|]. simpl in H2 |- *. inversion H2; subst.
      assert (k <> c) by (intros ->; apply Habs; eauto).
      destruct Hlok as [Hs _]. rewrite fmap_app in Hs. apply ss_app in Hs as (_ & Hs & _). simpl in Hs. apply StronglySorted_inv in Hs as [_ Hs].
      constructor; [lia|]. eapply Forall_impl; [exact Hs|]. simpl. lia. }
    match goal with |- exists b' l', obind ?m _ = _ /\ _ => assert (Em : m = Ok true) end.
    { destruct l2 as [|[k w] l2'].
      - rewrite decide_True by (simpl; lia). done.
      - rewrite decide_False by (simpl; lia). destruct (stores_cols_lookup b pre l1 (k, w) l2' post Hst) as [E1 E2]. simpl in E1, E2.
        rewrite (rd_Ok _ _ _ E1). cbn [obind]. rewrite bool_decide_eq_true_2; [done|]. intros ->. apply Habs; eauto. }
    rewrite Em. cbn [obind]. clear Em.
    assert (Hold : cell_in c (l1 ++ l2) = vzero) by (rewrite cell_in_app by done; by apply cell_in_lt).
    destruct (viszero v) eqn:Ez.
    + exists b, (l1 ++ l2). split; [done|]. rewrite list_insert_id by done. split; [|split; [|split]]; [split; auto| |done|].
      * intros c'. case_decide; [by subst|done].
      * rewrite ?app_length; simpl; lia.
    + (* create gap *)
      assert (Esv : exists z, (if decide (length l1 + length l2 + length (concat post) = 0) then Ok (bvals b)
         else shift_right (length (concat pre)) (length l1 + length l2 + length (concat post)) (length l1) (bvals b))
         = Ok (((concat pre).*2 ++ l1.*2) ++ z :: (l2 ++ concat post).*2 ++ rv')).
      { case_decide.
        - exists vx. rewrite Hvs. destruct l1, l2, (concat post); simpl in *; try lia. rewrite app_nil_r. done.
        - rewrite Hvs. destruct (shift_right_spec ((concat pre).*2 ++ l1.*2) ((l2 ++ concat post).*2) rv' vx (length (concat pre))
            (length l1 + length l2 + length (concat post)) (length l1)) as (z & Ez').
          { rewrite app_length, !fmap_length. done. } { rewrite fmap_length, app_length. lia. } { lia. }
          exists z. rewrite <- Ez'. f_equal. rewrite fmap_app, <- !app_assoc. done. }
      assert (Esc : exists z, (if decide (length l1 + length l2 + length (concat post) = 0) then Ok (bcols b)
         else shift_right (length (concat pre)) (length l1 + length l2 + length (concat post)) (length l1) (bcols b))
         = Ok (((concat pre).*1 ++ l1.*1) ++ z :: (l2 ++ concat post).*1 ++ rc')).
      { case_decide.
        - exists cx. rewrite Hcs. destruct l1, l2, (concat post); simpl in *; try lia. rewrite app_nil_r. done.
        - rewrite Hcs. destruct (shift_right_spec ((concat pre).*1 ++ l1.*1) ((l2 ++ concat post).*1) rc' cx (length (concat pre))
            (length l1 + length l2 + length (concat post)) (length l1)) as (z & Ez').
          { rewrite app_length, !fmap_length. done. } { rewrite fmap_length, app_length. lia. } { lia. }
          exists z. rewrite <- Ez'. f_equal. rewrite fmap_app, <- !app_assoc. done. }
      destruct Esv as (zv & ->). cbn [obind]. destruct Esc as (zc & ->). cbn [obind].
      rewrite wr_Ok by (rewrite !app_length, !fmap_length; simpl; lia). cbn [obind].
      rewrite wr_Ok by (rewrite !app_length, !fmap_length; simpl; lia). cbn [obind].
      rewrite !insert_app_r_alt by (rewrite app_length, !fmap_length; lia). rewrite !app_length, !fmap_length.
      replace (length (concat pre) + length l1 - (length (concat pre) + length l1)) with 0 by lia. simpl.
      rewrite Hro.
      pose proof (upd_suffix (fun x => x + 1) (h_off h) (r + 1) (h_alloc h + 1)
        (offs_init 0 pre ++ [length (concat pre)]) (offsets (length (concat pre) + (length l1 + length l2)) post)) as Er.
      rewrite <- app_assoc in Er. simpl in Er |- *.
      rewrite Er; [|rewrite app_length, offs_init_length; simpl; lia|rewrite offsets_length; rewrite app_length in Hal; simpl in Hal; lia|lia].
      cbn [obind].
      rewrite <- offsets_add.
      replace (length (concat pre) + (length l1 + length l2) + 1) with (length (concat pre) + length (l1 ++ (c, v) :: l2)) by (rewrite app_length; simpl; lia).
      eexists _, (l1 ++ (c, v) :: l2). split; [done|]. rewrite insert_split by done. split; [|split; [|split]].
      * rewrite <- (app_assoc (offs_init 0 pre)). cbn [app]. apply Hgoal.
        { destruct Hlok as [Hs Hn]. rewrite fmap_app in Hs, Hn. apply ss_app in Hs as (Hs1 & Hs2 & Hs3). apply Forall_app in Hn as [Hn1 Hn2].
          split; rewrite fmap_app; simpl; [apply ss_app; repeat split; auto; [by constructor|]|apply Forall_app; split; [done|by constructor]].
          apply Forall_lookup_2. intros i x Hx. rewrite Forall_lookup in H1, Hs3. constructor; [by apply (H1 i)|by apply (Hs3 i)]. }
        { rewrite Hlen. simpl. rewrite !app_length. simpl. rewrite !app_length, !fmap_length, !app_length. lia. }
        { exists rc', rv'. rewrite concat_app. simpl. rewrite !fmap_app. simpl. rewrite <- !app_assoc. simpl. done. }
      * intros c'. case_decide as Ec'.
        { subst. rewrite cell_in_app by done. simpl. by rewrite decide_True. }
        { by rewrite cell_in_middle by congruence. }
      * intros Hz. unfold no_zeros in *. apply Forall_app in Hz as [Hz1 Hz2]. inversion Hz2 as [|? ? Hz3 Hz4]; subst.
        apply Forall_app; split; [done|]. constructor; [|done]. apply Forall_app in Hz3 as [Hz3 Hz5]. apply Forall_app; split; [done|]. by constructor.
      * simpl. rewrite !app_length. simpl. lia.
Qed.
End proofs.
