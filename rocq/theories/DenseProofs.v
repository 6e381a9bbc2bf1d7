(** Lemmas on the dense matrix model. *)
From stdpp Require Import base sorting numbers list.
From Coq Require Import Lia.
From Verif Require Import CppBase DenseModel DenseSpec.

Lemma fill_range_spec {V} (b : list V) lo hi z : hi <= length b ->
  exists b', fill_range b lo hi z = Ok b' /\ length b' = length b /\
    (forall j, lo <= j < hi -> b' !! j = Some z) /\ (forall j, ~ (lo <= j < hi) -> b' !! j = b !! j).
Proof.
  intros Hh. unfold fill_range. destruct (decide (lo <= hi)) as [Hle|Hgt].
  - destruct (for_up_inv (fun i b' => length b' = length b /\ (forall j, lo <= j < i -> b' !! j = Some z) /\ (forall j, ~ (lo <= j < i) -> b' !! j = b !! j))
      lo hi (fun i b => wr b i z) b Hle) as (b' & E & H1 & H2 & H3).
    + split; [done|]. split; [lia|done].
    + intros i s Hi (Hl & H1 & H2). rewrite wr_Ok by lia. eexists. split; [done|]. rewrite insert_length. split; [done|]. split.
      * intros j Hj. destruct (decide (j = i)) as [->|]; [apply list_lookup_insert; lia|]. rewrite list_lookup_insert_ne by done. apply H1. lia.
      * intros j Hj. rewrite list_lookup_insert_ne by lia. apply H2. lia.
    + exists b'. auto.
  - unfold for_up. replace (hi - lo) with 0 by lia. simpl. exists b. split; [done|]. split; [done|]. split; [lia|done].
Qed.

(** A view on the window [w] of an n x m matrix. *)
Definition is_view_on (n m : nat) (h : dmh) (w : window) : Prop :=
  d_off h = w_row w * m + w_col w /\ d_rows h = w_rows w /\ d_cols h = w_cols w /\ d_skip h = m /\
  d_buf h = d_rows h * m /\ w_row w + w_rows w <= n /\ w_col w + w_cols w <= m.

Lemma new_is_view n m : is_view_on n m (dm_new n m) (whole n m).
Proof. unfold is_view_on, whole. simpl. repeat split; lia. Qed.

Lemma bad_range_spec lo hi n : bad_range lo hi n = false <-> valid_bounds lo hi n.
Proof. unfold bad_range, valid_bounds. rewrite bool_decide_eq_false. lia. Qed.

Lemma slice_is_view n m h w rl ru cl cu : is_view_on n m h w ->
  (valid_bounds rl ru (w_rows w) /\ valid_bounds cl cu (w_cols w) ->
   exists h', dm_slice h rl ru cl cu = Ok h' /\ is_view_on n m h' (sub_window w rl ru cl cu)) /\
  (~ (valid_bounds rl ru (w_rows w) /\ valid_bounds cl cu (w_cols w)) -> dm_slice h rl ru cl cu = Throw).
Proof.
  intros (Ho & Hr & Hc & Hs & Hb & Hrn & Hcm). unfold dm_slice. rewrite Hr, Hc. split.
  - intros [H1 H2]. rewrite (proj2 (bad_range_spec _ _ _) H1), (proj2 (bad_range_spec _ _ _) H2). eexists. split; [done|].
    unfold valid_bounds in *. unfold is_view_on, sub_window. simpl. rewrite Ho, Hs. repeat split; lia.
  - intros Hn. destruct (bad_range rl ru (w_rows w)) eqn:E1; [done|]. destruct (bad_range cl cu (w_cols w)) eqn:E2; [done|].
    apply bad_range_spec in E1. apply bad_range_spec in E2. tauto.
Qed.

Fixpoint dm_slices (h : dmh) (chain : list (Z * Z * Z * Z)) : outcome dmh :=
  match chain with
  | [] => Ok h
  | (rl, ru, cl, cu) :: chain' => let* h' := dm_slice h rl ru cl cu in dm_slices h' chain'
  end.
Lemma slices_is_view n m chain : forall h w, is_view_on n m h w ->
  match windows w chain with
  | Some w' => exists h', dm_slices h chain = Ok h' /\ is_view_on n m h' w'
  | None => dm_slices h chain = Throw
  end.
Proof.
  induction chain as [|[[[rl ru] cl] cu] chain IH]; intros h w Hv; simpl; [eauto|].
  destruct (slice_is_view n m h w rl ru cl cu Hv) as [H1 H2]. case_decide as Hd.
  - destruct (H1 Hd) as (h' & -> & Hv'). cbn [obind]. by apply IH.
  - by rewrite H2.
Qed.

Lemma view_start n m h w : is_view_on n m h w -> dm_partial h = false /\ dm_start h = d_off h.
Proof.
  intros (Ho & Hr & Hc & Hs & Hb & _). assert (E : dm_partial h = false) by (unfold dm_partial; apply bool_decide_eq_false; lia).
  unfold dm_start. by rewrite E.
Qed.
Lemma view_get {V} (b : list V) n m h w r c : is_view_on n m h w -> length b = n * m -> r < w_rows w -> c < w_cols w ->
  exists v, stored_at b m (w_row w + r) (w_col w + c) = Some v /\ dm_get b h r c = Ok v.
Proof.
  intros Hv Hl Hr Hc. destruct (view_start _ _ _ _ Hv) as [Hp Hst]. destruct Hv as (Ho & Hrr & Hcc & Hs & Hb & Hrn & Hcm).
  unfold dm_get. rewrite Hp, Hst. unfold dm_pos. rewrite !decide_False by lia. cbn [obind].
  unfold stored_at. rewrite Ho, Hs.
  destruct (rd_lt b (w_row w * m + w_col w + (r * m + c))) as (v & Hv & E); [nia|].
  exists v. split; [|done]. rewrite <- Hv. f_equal. lia.
Qed.
Lemma view_set {V} (b : list V) n m h w r c v : is_view_on n m h w -> length b = n * m -> r < w_rows w -> c < w_cols w ->
  exists b', dm_set b h r c v = Ok b' /\ length b' = length b /\
    forall r' c', c' < m -> stored_at b' m r' c' = if decide (r' = w_row w + r /\ c' = w_col w + c) then Some v else stored_at b m r' c'.
Proof.
  intros Hv Hl Hr Hc. destruct (view_start _ _ _ _ Hv) as [Hp Hst]. destruct Hv as (Ho & Hrr & Hcc & Hs & Hb & Hrn & Hcm).
  unfold dm_set. rewrite Hst. unfold dm_pos. rewrite !decide_False by lia. cbn [obind]. rewrite Hs, Ho.
  rewrite wr_Ok by nia. eexists. split; [done|]. rewrite insert_length. split; [done|].
  intros r' c' Hc'. unfold stored_at. case_decide as Hd.
  - destruct Hd as [-> ->]. replace ((w_row w + r) * m + (w_col w + c)) with (w_row w * m + w_col w + (r * m + c)) by lia.
    apply list_lookup_insert. nia.
  - apply list_lookup_insert_ne. intros E.
    assert (E' : m * (w_row w + r) + (w_col w + c) = m * r' + c') by lia.
    apply Nat.div_mod_unique in E'; [|lia|lia]. destruct E' as [<- <-]. auto.
Qed.

(** Appending. *)
Section ap.
Context {V : Type} (z : V).

(** Position of cell (r, c) in the order of the append protocol. *)
Definition lin (h : dmh) (r c : nat) : nat := r * d_cols h + c.
Definition addr (h : dmh) (r c : nat) : nat := d_off h + r * d_skip h + c.
Definition in_h (h : dmh) (r c : nat) : Prop := r < d_rows h /\ c < d_cols h.
Definition fits (b : list V) (h : dmh) : Prop := d_cols h <= d_skip h /\ (forall r c, in_h h r c -> addr h r c < length b).

Lemma addr_inj h r c r' c' : d_cols h <= d_skip h -> c < d_cols h -> c' < d_cols h -> addr h r c = addr h r' c' -> r = r' /\ c = c'.
Proof.
  unfold addr. intros Hs Hc Hc' E. assert (E' : d_skip h * r + c = d_skip h * r' + c') by lia.
  by apply Nat.div_mod_unique in E'; [|lia|lia].
Qed.

Lemma fill_rows (h : dmh) lo hi : 0 < d_cols h -> d_cols h <= d_skip h -> forall b, lo <= hi -> hi <= d_rows h -> fits b h ->
  exists b', for_up lo hi (fun i b => fill_range b (d_off h + i * d_skip h) (d_off h + i * d_skip h + d_cols h) z) b = Ok b' /\
    length b' = length b /\
    (forall r c, lo <= r < hi -> c < d_cols h -> b' !! addr h r c = Some z) /\
    (forall j, (forall r c, lo <= r < hi -> c < d_cols h -> j <> addr h r c) -> b' !! j = b !! j).
Proof.
  intros Hc0 Hs b Hle Hhi Hf.
  destruct (for_up_inv (fun i b' => length b' = length b /\ (forall r c, lo <= r < i -> c < d_cols h -> b' !! addr h r c = Some z) /\
      (forall j, (forall r c, lo <= r < i -> c < d_cols h -> j <> addr h r c) -> b' !! j = b !! j))
      lo hi (fun i b => fill_range b (d_off h + i * d_skip h) (d_off h + i * d_skip h + d_cols h) z) b Hle) as (b' & E & H1 & H2 & H3).
  - split; [done|]. split; [lia|done].
  - intros i s Hi (Hl & H1 & H2).
    assert (Hub : d_off h + i * d_skip h + d_cols h <= length s).
    { destruct Hf as [_ Hf]. specialize (Hf i (d_cols h - 1)). unfold in_h, addr in Hf. lia. }
    destruct (fill_range_spec s (d_off h + i * d_skip h) (d_off h + i * d_skip h + d_cols h) z Hub) as (s' & -> & Hl' & F1 & F2).
    exists s'. split; [done|]. split; [lia|]. split.
    + intros r c Hr Hc. destruct (decide (r = i)) as [->|].
      * apply F1. unfold addr. lia.
      * rewrite F2; [apply H1; lia|]. unfold addr. intros Hx.
        assert (Hd : exists c', c' < d_cols h /\ addr h r c = addr h i c').
        { exists (d_off h + r * d_skip h + c - (d_off h + i * d_skip h)). unfold addr. lia. }
        destruct Hd as (c' & Hc' & Ea). apply addr_inj in Ea; lia.
    + intros j Hj. rewrite F2.
      * apply H2. intros r c Hr. apply Hj. lia.
      * intros Hx. apply (Hj i (j - (d_off h + i * d_skip h))); [lia|lia|]. unfold addr. lia.
  - exists b'. auto.
Qed.

Lemma lin_lt h r c r' c' : c < d_cols h -> c' < d_cols h -> lin h r c < lin h r' c' <-> r < r' \/ (r = r' /\ c < c').
Proof. unfold lin. intros Hc Hc'. split; [|nia]. intros Hl. destruct (Nat.lt_total r r') as [|[->|]]; [auto|right; lia|nia]. Qed.
Lemma lin_le h r c r' c' : c < d_cols h -> c' < d_cols h -> lin h r c <= lin h r' c' <-> r < r' \/ (r = r' /\ c <= c').
Proof. unfold lin. intros Hc Hc'. split; [|nia]. intros Hl. destruct (Nat.lt_total r r') as [|[->|]]; [auto|right; lia|nia]. Qed.

Lemma fillZero_spec b h r c :
  fits b h -> in_h h (d_lr h) (d_lc h) -> in_h h r c -> lin h (d_lr h) (d_lc h) <= lin h r c ->
  (d_skip h = d_cols h \/ d_lr h = r \/ c = 0) ->
  exists b', dm_fillZeroUntil z b h r c = Ok b' /\ length b' = length b /\
    (forall r' c', in_h h r' c' -> lin h (d_lr h) (d_lc h) < lin h r' c' < lin h r c -> b' !! addr h r' c' = Some z) /\
    (forall j, (forall r' c', in_h h r' c' -> lin h (d_lr h) (d_lc h) < lin h r' c' < lin h r c -> j <> addr h r' c') -> b' !! j = b !! j).
Proof.
  intros [Hs Hf] [Hlr Hlc] [Hr Hc] Hle Hgood. unfold dm_fillZeroUntil. case_decide as Hd.
  - unfold dm_pos. rewrite (decide_False (P := d_rows h <= d_lr h)), (decide_False (P := d_cols h <= d_lc h)) by lia. cbn [obind].
    rewrite (decide_False (P := d_rows h <= r)), (decide_False (P := d_cols h <= c)) by lia. cbn [obind].
    assert (Hsame : forall r' c', in_h h r' c' -> lin h (d_lr h) (d_lc h) < lin h r' c' < lin h r c <->
       addr h (d_lr h) (d_lc h) < addr h r' c' < addr h r c).
    { intros r' c' [Hr' Hc']. destruct Hd as [Hd|Hd].
      - unfold lin, addr. rewrite Hd. lia.
      - rewrite !lin_lt by done. rewrite Hd. unfold addr. split; [intros [? ?]; assert (r' = r) as -> by lia; lia|].
        intros [H1 H2]. assert (r' = r) as -> by nia. lia. }
    assert (Hex : forall j, addr h (d_lr h) (d_lc h) < j < addr h r c -> exists r' c', in_h h r' c' /\ j = addr h r' c').
    { intros j Hj. destruct Hd as [Hd|Hd].
      - unfold addr in *. rewrite Hd in *. exists ((j - d_off h) / d_cols h), ((j - d_off h) mod d_cols h).
        assert (d_cols h <> 0) by lia.
        pose proof (Nat.div_mod (j - d_off h) (d_cols h) H). pose proof (Nat.mod_upper_bound (j - d_off h) (d_cols h) H).
        split; [split; [|lia]|lia]. apply Nat.div_lt_upper_bound; [done|]. nia.
      - unfold addr in *. rewrite Hd in *. exists r, (j - (d_off h + r * d_skip h)). unfold in_h. lia. }
    case_decide as Hlt.
    + destruct (fill_range_spec b (d_off h + (d_lr h * d_skip h + d_lc h + 1)) (d_off h + (r * d_skip h + c)) z) as (b' & -> & Hl & F1 & F2).
      { specialize (Hf r c (conj Hr Hc)). unfold addr in Hf. lia. }
      exists b'. split; [done|]. split; [done|]. split.
      * intros r' c' Hin Hb. apply Hsame in Hb; [|done]. apply F1. unfold addr in *. lia.
      * intros j Hj. apply F2. intros Hx. destruct (Hex j) as (r' & c' & Hin & E); [unfold addr; lia|].
        apply (Hj r' c' Hin); [|done]. apply Hsame; [done|]. rewrite <- E. unfold addr. lia.
    + exists b. split; [done|]. split; [done|]. split; [|done].
      intros r' c' Hin Hb. apply Hsame in Hb; [|done]. unfold addr in *. lia.
  - assert (c = 0) as -> by tauto. apply lin_le in Hle; [|done|done].
    assert (Hlr' : d_lr h < r) by lia.
    destruct (fill_range_spec b (d_off h + d_lr h * d_skip h + d_lc h + 1) (d_off h + d_lr h * d_skip h + d_cols h) z) as (b1 & -> & Hl1 & F1 & F2).
    { specialize (Hf (d_lr h) (d_cols h - 1)). unfold in_h, addr in Hf. lia. }
    cbn [obind].
    destruct (fill_rows h (d_lr h + 1) r ltac:(lia) Hs b1) as (b2 & -> & Hl2 & G1 & G2); [lia|lia| |].
    { split; [done|]. intros. rewrite Hl1. auto. }
    cbn [obind]. rewrite decide_False by tauto. exists b2. split; [done|]. split; [lia|]. split.
    + intros r' c' [Hr' Hc'] Hb. rewrite !lin_lt in Hb by done. destruct (decide (r' = d_lr h)) as [->|].
      * rewrite G2; [apply F1; unfold addr; lia|]. intros r'' c'' Hr'' Hc'' E. apply addr_inj in E; lia.
      * apply G1; lia.
    + intros j Hj. rewrite G2.
      * apply F2. intros Hx. apply (Hj (d_lr h) (j - (d_off h + d_lr h * d_skip h))); [split; lia| |unfold addr; lia]. rewrite !lin_lt by lia. lia.
      * intros r' c' Hr' Hc'. apply Hj; [split; lia|]. rewrite !lin_lt by lia. lia.
Qed.

(** State of the buffer after a part of the history: cells up to the last appended one are as wanted, addresses that are
    not cells of the matrix are as in the original buffer [b0]. *)
Record dinv (b0 b : list V) (h : dmh) (hist : list (nat * nat * V)) : Prop := mkDinv {
  di_fits : fits b h;
  di_last : in_h h (d_lr h) (d_lc h);
  di_len : length b = length b0;
  di_written : forall r c, in_h h r c -> lin h r c <= lin h (d_lr h) (d_lc h) -> b !! addr h r c = Some (wanted z hist r c);
  di_outside : forall j, (forall r c, in_h h r c -> j <> addr h r c) -> b !! j = b0 !! j;
  di_hist : Forall (fun e => lin h (fst (fst e)) (snd (fst e)) <= lin h (d_lr h) (d_lc h) /\ in_h h (fst (fst e)) (snd (fst e))) hist
}.

Lemma wanted_snoc hist r c v r' c' : (forall v', ~ (r, c, v') ∈ hist) ->
  wanted z (hist ++ [(r, c, v)]) r' c' = if decide (r' = r /\ c' = c) then v else wanted z hist r' c'.
Proof.
  intros Hn. induction hist as [|[[r0 c0] v0] hist IH]; simpl.
  - repeat case_decide; try done; exfalso; naive_solver.
  - assert (Hn' : forall v', ~ (r, c, v') ∈ hist) by (intros v' Hv; apply (Hn v'); by apply elem_of_list_further).
    rewrite (IH Hn'). case_decide as H1; [|done]. case_decide as H2; [|done].
    exfalso. destruct H1 as [-> ->], H2 as [-> ->]. apply (Hn v0). apply elem_of_list_here.
Qed.
Lemma wanted_out hist r c : (forall v', ~ (r, c, v') ∈ hist) -> wanted z hist r c = z.
Proof.
  induction hist as [|[[r0 c0] v0] hist IH]; intros Hn; simpl; [done|]. rewrite decide_False.
  - apply IH. intros v' Hv. apply (Hn v'). by apply elem_of_list_further.
  - intros [-> ->]. apply (Hn v0). apply elem_of_list_here.
Qed.

Lemma lin_h' h h' r c : d_cols h' = d_cols h -> lin h' r c = lin h r c.
Proof. unfold lin. by intros ->. Qed.

Lemma append_step b0 b h hist r c v :
  dinv b0 b h hist -> in_h h r c -> (forall v', ~ (r, c, v') ∈ hist) ->
  lin h (d_lr h) (d_lc h) <= lin h r c -> (d_skip h = d_cols h \/ d_lr h = r \/ c = 0) ->
  exists b', let h' := mkD (d_off h) (d_rows h) (d_cols h) (d_skip h) (d_buf h) (d_ro h) (d_co h) r c in
    dm_append z b h r c v = Ok (b', h') /\ dinv b0 b' h' (hist ++ [(r, c, v)]).
Proof.
  intros [Hf Hl Hlen Hw Ho Hh] Hin Hnew Hle Hgood. unfold dm_append.
  destruct (fillZero_spec b h r c Hf Hl Hin Hle Hgood) as (b1 & -> & Hl1 & F1 & F2). cbn [obind].
  unfold dm_pos. pose proof Hin as [Hr Hc]. rewrite !decide_False by lia. cbn [obind].
  assert (Ha : d_off h + (r * d_skip h + c) = addr h r c) by (unfold addr; lia). rewrite Ha.
  pose proof Hf as [Hs Hf']. rewrite wr_Ok by (rewrite Hl1; auto). cbn [obind].
  eexists. simpl. split; [done|]. split; simpl; auto.
  - split; [done|]. intros r' c' Hin'. rewrite insert_length, Hl1. apply Hf'. done.
  - rewrite insert_length. lia.
  - unfold in_h, addr, lin. simpl. intros r' c' [Hr' Hc'] Hl'. change (d_off h + r' * d_skip h + c') with (addr h r' c').
    rewrite wanted_snoc by done. case_decide as Hd.
    + destruct Hd as [-> ->]. apply list_lookup_insert. rewrite Hl1. apply Hf'. split; done.
    + rewrite list_lookup_insert_ne by (intros E; apply addr_inj in E; [|done|lia|lia]; destruct E; auto).
      fold (lin h r' c') in Hl'. fold (lin h r c) in Hl'.
      assert (Hlt : lin h r' c' < lin h r c).
      { apply lin_lt; [done|done|]. apply lin_le in Hl'; [|done|done]. destruct Hl' as [|[-> Hx]]; [auto|]. right. split; [done|].
        destruct (decide (c' = c)) as [->|]; [exfalso; auto|lia]. }
      destruct (decide (lin h r' c' <= lin h (d_lr h) (d_lc h))) as [Hold|Hnw].
      * rewrite F2; [apply Hw; [split; done|done]|]. intros r'' c'' [Hr'' Hc''] Hb E. apply addr_inj in E; [|done|done|done]. destruct E as [<- <-]. lia.
      * rewrite F1; [|split; done|lia]. f_equal. symmetry. apply wanted_out. intros v' Hv'.
        rewrite Forall_forall in Hh. specialize (Hh _ Hv'). simpl in Hh. lia.
  - unfold in_h, addr. simpl. intros j Hj. rewrite list_lookup_insert_ne.
    + rewrite F2; [apply Ho; intros r' c' Hin'; apply Hj, Hin'|]. intros r' c' Hin' _. apply Hj, Hin'.
    + intros <-. apply (Hj r c Hin). done.
  - unfold lin, in_h. simpl. apply Forall_app. split; [|constructor; [simpl; split; [lia|done]|done]].
    eapply Forall_impl; [exact Hh|]. simpl. intros [[r' c'] v'] [H1 H2]. simpl in *. split; [|done]. unfold lin in *. lia.
Qed.

(** A whole history. [strict] orders the calls; the first may be at (0, 0). *)
Lemma appends_ok hist2 : forall b0 b h hist1,
  dinv b0 b h hist1 -> dense_row_major hist2 -> Forall (fun e => in_h h (fst (fst e)) (snd (fst e))) hist2 ->
  Forall (fun e => lin h (d_lr h) (d_lc h) <= lin h (fst (fst e)) (snd (fst e)) /\ (forall v', ~ (fst (fst e), snd (fst e), v') ∈ hist1)) hist2 ->
  (d_skip h = d_cols h \/ rows_start_at_0 (d_lr h) hist2) ->
  exists b' h', dm_appends z b h hist2 = Ok (b', h') /\ dinv b0 b' h' (hist1 ++ hist2) /\
    d_off h' = d_off h /\ d_rows h' = d_rows h /\ d_cols h' = d_cols h /\ d_skip h' = d_skip h /\ d_lr h' = last_row (d_lr h) hist2.
Proof.
  induction hist2 as [|[[r c] v] hist2 IH]; intros b0 b h hist1 Hi Hrm Hir Hle Hg; simpl.
  - exists b, h. rewrite app_nil_r. auto 10.
  - apply StronglySorted_inv in Hrm as [Hrm Hfirst]. apply Forall_cons in Hir as [Hin Hir]. simpl in Hin.
    apply Forall_cons in Hle as [[Hl1 Hl2] Hle]. simpl in Hl1, Hl2.
    destruct (append_step b0 b h hist1 r c v Hi Hin Hl2 Hl1) as (b1 & E & Hi1). { simpl in Hg. intuition congruence. }
    rewrite E. cbn [obind].
    destruct (IH b0 b1 _ _ Hi1 Hrm) as (b2 & h2 & E2 & Hi2 & Hx).
    + exact Hir.
    + apply Forall_forall. intros [[r' c'] v'] He. rewrite !Forall_forall in *. specialize (Hfirst _ He). specialize (Hle _ He). specialize (Hir _ He).
      simpl in *. destruct Hle as [Ha Hb]. split.
      * unfold lin in *. simpl. destruct Hin, Hir. simpl in *. nia.
      * intros v'' Hv''. apply elem_of_app in Hv'' as [?|Hv'']; [by eapply Hb|]. apply elem_of_list_singleton in Hv''. injection Hv'' as -> -> ->. lia.
    + simpl. simpl in Hg. tauto.
    + exists b2, h2. rewrite <- app_assoc in Hi2. simpl in *. rewrite E2. split; [done|]. split; [done|]. done.
Qed.

Lemma in_hist_snoc_zero hist r c r' c' : wanted z (hist ++ [(r, c, z)]) r' c' = wanted z hist r' c'.
Proof.
  induction hist as [|[[r0 c0] v0] hist IH]; simpl; [by case_decide|]. by rewrite IH.
Qed.

Lemma append_all_ok b h hist :
  fits b h -> dense_row_major hist -> Forall (fun e => in_h h (fst (fst e)) (snd (fst e))) hist ->
  (d_skip h = d_cols h \/ (rows_start_at_0 0 hist /\ (last_row 0 hist + 1 = d_rows h \/ d_cols h = 1))) ->
  exists b' h', dm_append_all z b h hist = Ok (b', h') /\ length b' = length b /\
    d_off h' = d_off h /\ d_rows h' = d_rows h /\ d_cols h' = d_cols h /\ d_skip h' = d_skip h /\
    (forall r c, in_h h r c -> b' !! addr h r c = Some (wanted z hist r c)) /\
    (forall j, (forall r c, in_h h r c -> j <> addr h r c) -> b' !! j = b !! j).
Proof.
  intros Hf Hrm Hir Hg. unfold dm_append_all, dm_prepareAppend. case_decide as Hd.
  2:{ cbn [obind]. destruct hist as [|e hist]; [|apply Forall_cons in Hir as [[? ?] _]; lia]. simpl.
      unfold dm_finishAppend. simpl. rewrite decide_False by tauto. eexists _, _. split; [done|]. split; [done|]. simpl.
      split; [done|]. split; [done|]. split; [done|]. split; [done|]. split; [|done]. intros r c [? ?]. lia. }
  assert (Hz0 : d_off h + 0 < length b). { destruct Hf as [_ Hf]. specialize (Hf 0 0). unfold in_h, addr in Hf. lia. }
  rewrite wr_Ok by done. cbn [obind].
  set (h0 := mkD (d_off h) (d_rows h) (d_cols h) (d_skip h) (d_buf h) (d_ro h) (d_co h) 0 0).
  assert (Hi0 : dinv b (<[d_off h + 0 := z]> b) h0 []).
  { split; simpl.
    - destruct Hf as [Hs Hf]. split; [done|]. intros r c Hin. rewrite insert_length. by apply Hf.
    - split; simpl; lia.
    - apply insert_length.
    - unfold lin, addr, in_h. simpl. intros r c [Hr Hc] Hl. assert (r = 0 /\ c = 0) as [-> ->] by nia. simpl. rewrite Nat.add_0_r.
      rewrite Nat.add_0_r. apply list_lookup_insert. lia.
    - unfold addr, in_h. simpl. intros j Hj. apply list_lookup_insert_ne. intros <-. apply (Hj 0 0); lia.
    - constructor. }
  destruct (appends_ok hist b _ h0 [] Hi0 Hrm) as (b1 & h1 & -> & Hi1 & E1 & E2 & E3 & E4 & E5).
  { exact Hir. }
  { apply Forall_forall. intros e _. split; [unfold lin; simpl; lia|]. intros v' Hv'. by apply elem_of_nil in Hv'. }
  { simpl. tauto. }
  cbn [obind]. simpl in Hi1, E1, E2, E3, E4, E5. unfold dm_finishAppend.
  assert (Hin1 : forall r c, in_h h1 r c <-> in_h h r c) by (intros; unfold in_h; by rewrite E2, E3).
  assert (Ha1 : forall r c, addr h1 r c = addr h r c) by (intros; unfold addr; by rewrite E1, E4).
  case_decide as Hfin.
  - pose proof (di_last _ _ _ _ Hi1) as [Hlr Hlc].
    destruct (append_step b b1 h1 hist (d_rows h1 - 1) (d_cols h1 - 1) z Hi1) as (b2 & E & Hi2).
    + split; lia.
    + intros v' Hv'. pose proof (di_hist _ _ _ _ Hi1) as Hh. rewrite Forall_forall in Hh. specialize (Hh _ Hv') as [Hh [_ Hh2]]. simpl in Hh, Hh2.
      apply lin_le in Hh; lia.
    + apply lin_le; lia.
    + rewrite E3, E4, E5, E2. destruct Hg as [|[_ [|]]]; [auto|right; left; lia|right; right; lia].
    + rewrite E. eexists _, _. split; [done|]. destruct Hi2 as [_ _ Hlen Hw Ho _]. simpl in *.
      split; [done|]. rewrite E1, E2, E3, E4. split; [done|]. split; [done|]. split; [done|]. split; [done|]. split.
      * intros r c Hin. unfold in_h, addr, lin in Hw, Hin. simpl in Hw. rewrite E2, E3, E1, E4 in Hw.
        rewrite <- (in_hist_snoc_zero hist (d_rows h - 1) (d_cols h - 1)). apply Hw; [done|]. nia.
      * intros j Hj. apply Ho. unfold in_h, addr. simpl. rewrite E1, E2, E3, E4. exact Hj.
  - exists b1, h1. split; [done|]. destruct Hi1 as [_ Hl1 Hlen Hw Ho _]. split; [done|]. split; [done|]. split; [done|]. split; [done|]. split; [done|]. split.
    + intros r c Hin. rewrite <- Ha1. apply Hw; [by apply Hin1|]. apply lin_le.
      * rewrite E3. apply Hin.
      * apply Hl1.
      * destruct Hin, Hl1. rewrite E2, E3 in *. lia.
    + intros j Hj. apply Ho. intros r c Hin. rewrite Ha1. apply Hj, Hin1, Hin.
Qed.
End ap.
