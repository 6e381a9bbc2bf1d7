(** C32: inner join and semi join. *)
From stdpp Require Import base numbers sorting list list_numbers.
From Coq Require Import Lia.
From Verif Require Import CppBase Mem Extract OrderModel OrderProofs JoinModel.
Local Open Scope nat_scope.

(** * Specification *)
Section Spec.
  Context {V L : Type}.
  (** Cell in row [r] and column [c]. *)
  Definition cell (f : frame V L) (r c : nat) : option V := if decide (r < f_rows f) then f_cols f !! c ≫= fun k => c_cells k !! r else None.
  (** Labels are unique and every column has the rows of the frame. *)
  Definition valid (f : frame V L) : Prop := NoDup (c_label <$> f_cols f) /\ forall c, c ∈ f_cols f -> f_rows f <= length (c_cells c).
  (** The column with label [l] has type [t] and values [ks]. *)
  Definition key_column (f : frame V L) (l : L) (t : vtc) (ks : list V) : Prop :=
    exists i c, f_cols f !! i = Some c /\ c_label c = l /\ c_ty c = t /\ ks = take (f_rows f) (c_cells c).
  (** The pairs of rows with equal keys, by left row and then by right row. *)
  Definition lex (p q : nat * nat) : Prop := p.1 < q.1 \/ p.1 = q.1 /\ p.2 < q.2.
  Definition matches (lk rk : list V) (ps : list (nat * nat)) : Prop :=
    StronglySorted lex ps /\ forall l r, (l, r) ∈ ps <-> exists k, lk !! l = Some k /\ rk !! r = Some k.
  Definition supported (t : vtc) : Prop := t = TStr \/ t = TI64 \/ t = TF64.
End Spec.
Global Instance supported_dec t : Decision (supported t).
Proof. unfold supported. apply _. Defined.

(** * Proofs *)
Lemma over_app {A St} (f : A -> St -> outcome St) l1 l2 s : over f (l1 ++ l2) s = (let* t := over f l1 s in over f l2 t).
Proof. revert s. induction l1 as [|x l1 IH]; intros s; cbn [over app]; [done|]. destruct (f x s); cbn [obind]; [apply IH|done|done]. Qed.
Lemma over_fmap {A B St} (f : B -> St -> outcome St) (g : A -> B) l s : over f (g <$> l) s = over (fun x => f (g x)) l s.
Proof. revert s. induction l as [|x l IH]; intros s; [done|]. rewrite fmap_cons. cbn [over]. destruct (f (g x) s); cbn [obind]; [apply IH|done|done]. Qed.

Lemma for_up_throws_at {St} (P : nat -> St -> Prop) lo hi (f : nat -> St -> outcome St) s k : lo <= k < hi -> P lo s ->
  (forall i s, lo <= i < hi -> P i s -> f i s = Throw \/ exists s', f i s = Ok s' /\ P (S i) s') -> (forall s, P k s -> f k s = Throw) -> for_up lo hi f s = Throw.
Proof.
  intros Hk. unfold for_up. remember (hi - lo) as n eqn:Hn. revert lo s Hk Hn. induction n as [|n IH]; intros lo s Hk Hn HP Hf Hbad; [lia|]. cbn [forn].
  destruct (Hf lo s) as [->|(s' & E & HP')]; [lia|done|done|]. rewrite E. cbn [obind]. destruct (decide (lo = k)) as [->|].
  - rewrite Hbad in E by done. done.
  - apply IH; [lia|lia|done| |done]. intros i t Hi. apply Hf. lia.
Qed.

Section Proofs.
  Context {V L : Type} `{EqDecision V} `{EqDecision L}.
  Implicit Types (f lhs rhs : frame V L) (lk rk : list V).

  Definition rows_to rk (n : nat) (k : V) : list nat := filter (fun r => rk !! r = Some k) (seq 0 n).
  Definition pairs_to lk rk (n : nat) : list (nat * nat) :=
    concat ((fun l => match lk !! l with Some k => (l,.) <$> rows_to rk (length rk) k | None => [] end) <$> seq 0 n).
  Definition pairs lk rk := pairs_to lk rk (length lk).
  Lemma pairs_to_S lk rk n k : lk !! n = Some k -> pairs_to lk rk (S n) = pairs_to lk rk n ++ ((n,.) <$> rows_to rk (length rk) k).
  Proof. intros H. unfold pairs_to. rewrite seq_S, fmap_app, concat_app. cbn [fmap list_fmap concat plus]. by rewrite H, app_nil_r. Qed.
  Lemma rows_to_in rk k r : r ∈ rows_to rk (length rk) k <-> rk !! r = Some k.
  Proof. unfold rows_to. rewrite elem_of_list_filter, elem_of_seq. split; [tauto|]. intros H. split; [done|]. apply lookup_lt_Some in H. lia. Qed.
  Lemma pairs_to_in lk rk n l r : (l, r) ∈ pairs_to lk rk n <-> l < n /\ exists k, lk !! l = Some k /\ rk !! r = Some k.
  Proof.
    unfold pairs_to. rewrite elem_of_list_In, in_concat. split.
    - intros (x & Hx & Hin). apply elem_of_list_In in Hx, Hin. apply elem_of_list_fmap in Hx as (l' & -> & Hl'). apply elem_of_seq in Hl'. destruct (lk !! l') as [k|] eqn:E; [|by apply elem_of_nil in Hin].
      apply elem_of_list_fmap in Hin as (r' & [= -> ->] & Hr). split; [lia|]. exists k. split; [done|]. by apply rows_to_in.
    - intros (Hl & k & Hk & Hr). eexists. split; apply elem_of_list_In; [apply elem_of_list_fmap; exists l; split; [done|]; apply elem_of_seq; lia|]. rewrite Hk. apply elem_of_list_fmap. exists r. split; [done|]. by apply rows_to_in.
  Qed.
  Lemma sorted_fmap_pair (n : nat) (l : list nat) : StronglySorted lt l -> StronglySorted lex ((n,.) <$> l).
  Proof.
    induction 1 as [|x l Hl IH Hx]; [constructor|]. rewrite fmap_cons. constructor; [done|]. apply Forall_fmap. eapply Forall_impl; [exact Hx|]. intros y Hy. right. cbn. done.
  Qed.
  Lemma rows_sorted rk n k : StronglySorted lt (rows_to rk n k).
  Proof.
    unfold rows_to. pose proof (seq_sorted' 0 n) as H. induction H as [|x l Hl IH Hx]; [constructor|]. rewrite filter_cons. destruct (decide _); [|done]. constructor; [done|].
    apply Forall_forall. intros y Hy. apply elem_of_list_filter in Hy as [_ Hy]. rewrite Forall_forall in Hx. by apply Hx.
  Qed.
  Lemma pairs_to_sorted lk rk n : n <= length lk -> StronglySorted lex (pairs_to lk rk n).
  Proof.
    induction n as [|n IH]; intros Hn; [constructor|]. destruct (lookup_lt_is_Some_2 lk n ltac:(lia)) as [k Hk]. rewrite (pairs_to_S _ _ _ _ Hk). apply ss_app_iff. split; [apply IH; lia|]. split; [apply sorted_fmap_pair, rows_sorted|].
    intros [l1 r1] [l2 r2] H1 H2. apply pairs_to_in in H1 as [H1 _]. apply elem_of_list_fmap in H2 as (r & [= -> ->] & _). left. cbn. lia.
  Qed.
  Lemma pairs_matches lk rk : matches lk rk (pairs lk rk).
  Proof.
    split; [by apply pairs_to_sorted|]. intros l r. unfold pairs. rewrite pairs_to_in. split; [tauto|]. intros (k & Hl & Hr). split; [by apply lookup_lt_Some in Hl|eauto].
  Qed.
  Lemma lex_ss_NoDup ps : StronglySorted lex ps -> NoDup ps.
  Proof.
    induction 1 as [|x l Hl IH Hx]; constructor; [|done]. intros Hin. rewrite Forall_forall in Hx. specialize (Hx x Hin). unfold lex in Hx. lia.
  Qed.
  Lemma matches_unique lk rk ps qs : matches lk rk ps -> matches lk rk qs -> ps = qs.
  Proof.
    intros [Hs Hi] [Hs' Hi']. assert (Hp : ps ≡ₚ qs). { apply NoDup_Permutation; [by apply lex_ss_NoDup|by apply lex_ss_NoDup|]. intros [l r]. by rewrite Hi, Hi'. }
    clear Hi Hi'. revert qs Hs' Hp. induction Hs as [|x l Hl IH Hx]; intros qs Hs' Hp; [by apply Permutation_nil in Hp|]. destruct Hs' as [|y m Hm Hy]; [by apply Permutation_nil_r in Hp|].
    assert (x = y) as ->.
    { assert (Hin : y ∈ x :: l) by (rewrite Hp; by left). assert (Hin' : x ∈ y :: m) by (rewrite <- Hp; by left). rewrite Forall_forall in Hx, Hy.
      apply elem_of_cons in Hin as [->|Hin]; [done|]. apply elem_of_cons in Hin' as [->|Hin']; [done|]. specialize (Hx y Hin). specialize (Hy x Hin'). unfold lex in *. lia. }
    f_equal. apply IH; [done|]. by apply Permutation_cons_inv in Hp.
  Qed.
  Lemma pairs_length lk rk : length (pairs lk rk) <= length rk * length lk.
  Proof.
    unfold pairs. assert (H : forall n, n <= length lk -> length (pairs_to lk rk n) <= length rk * n); [|by apply H]. induction n as [|n IH]; intros Hn; [cbn; lia|].
    destruct (lookup_lt_is_Some_2 lk n ltac:(lia)) as [k Hk]. rewrite (pairs_to_S _ _ _ _ Hk), app_length, fmap_length. specialize (IH ltac:(lia)).
    assert (length (rows_to rk (length rk) k) <= length rk). { unfold rows_to. etransitivity; [apply filter_length|]. by rewrite seq_length. } lia.
  Qed.

  (** ** hash table *)
  Lemma push_find (m : list (V * list nat)) k k' r : default [] (find_rows k' (push k r m)) = default [] (find_rows k' m) ++ (if decide (k = k') then [r] else []).
  Proof.
    induction m as [|[k0 rs] m IH]; cbn [push find_rows].
    - destruct (decide (k = k')); done.
    - destruct (decide (k0 = k)) as [->|]; cbn [find_rows].
      + destruct (decide (k = k')) as [->|]; cbn [default id]; [done|]. by rewrite app_nil_r.
      + destruct (decide (k0 = k')) as [->|]; [|apply IH]. rewrite decide_False by done. cbn. by rewrite app_nil_r.
  Qed.
  Lemma col_idx_ok f i c : valid f -> f_cols f !! i = Some c -> col_idx f (c_label c) = Ok i.
  Proof.
    intros [Hnd _] Hi. unfold col_idx. destruct (list_find (fun c0 => c_label c0 = c_label c) (f_cols f)) as [[j d]|] eqn:E.
    - apply list_find_Some in E as (Hj & Hl & _). f_equal. apply (NoDup_lookup _ j i (c_label c) Hnd); [by rewrite list_lookup_fmap, Hj; cbn; f_equal|by rewrite list_lookup_fmap, Hi].
    - apply list_find_None in E. rewrite Forall_forall in E. exfalso. apply (E c); [by apply elem_of_list_lookup_2 in Hi|done].
  Qed.
  Lemma get_cell_ok f i c r v : valid f -> f_cols f !! i = Some c -> take (f_rows f) (c_cells c) !! r = Some v -> get_cell (c_ty c) f i r = Ok v.
  Proof.
    intros Hv Hi Hr. unfold get_cell. rewrite (rd_Ok _ _ _ Hi). cbn [obind]. rewrite decide_False by tauto. assert (r < f_rows f). { apply lookup_lt_Some in Hr. rewrite take_length in Hr. lia. }
    rewrite decide_False by lia. apply rd_Ok. by rewrite lookup_take in Hr by done.
  Qed.
  Lemma key_length f l t ks : valid f -> key_column f l t ks -> length ks = f_rows f.
  Proof. intros [_ H] (i & c & Hi & _ & _ & ->). rewrite take_length. apply elem_of_list_lookup_2 in Hi. specialize (H c Hi). lia. Qed.
  Lemma build_ok rhs on t rk : valid rhs -> key_column rhs on t rk -> exists m, build t rhs on = Ok m /\ forall k, default [] (find_rows k m) = rows_to rk (length rk) k.
  Proof.
    intros Hv Hk. pose proof (key_length _ _ _ _ Hv Hk) as Hlen. destruct Hk as (i & c & Hi & <- & <- & ->). unfold build. rewrite (col_idx_ok _ _ _ Hv Hi). cbn [obind]. rewrite (rd_Ok _ _ _ Hi). cbn [obind]. rewrite decide_False by tauto.
    set (rk := take (f_rows rhs) (c_cells c)) in *. rewrite <- Hlen.
    match goal with |- context [for_up 0 _ ?g []] => destruct (for_up_inv (fun n (m : list (V * list nat)) => forall k, default [] (find_rows k m) = rows_to rk n k) 0 (length rk) g []) as (m & E & Hm) end; [lia|done| |eauto].
    intros r m Hr Hm. destruct (lookup_lt_is_Some_2 rk r ltac:(lia)) as [v Hvr]. rewrite (get_cell_ok _ _ _ _ _ Hv Hi Hvr). cbn [obind]. eexists. split; [done|]. intros k. rewrite push_find, Hm. unfold rows_to. cbn [plus]. rewrite seq_S, filter_app. f_equal. cbn [plus].
    rewrite filter_cons, filter_nil, Hvr. destruct (decide (v = k)) as [->|]; [by rewrite decide_True|]. rewrite decide_False; [done|congruence].
  Qed.
  Lemma probe_ok t schema lhs rhs on lk rk m res : valid lhs -> key_column lhs on t lk -> (forall k, default [] (find_rows k m) = rows_to rk (length rk) k) ->
    probe t schema lhs rhs on m res = over (fun p s => emit schema lhs rhs p.1 p.2 s) (pairs lk rk) (res, 0).
  Proof.
    intros Hv Hk Hm. pose proof (key_length _ _ _ _ Hv Hk) as Hlen. destruct Hk as (i & c & Hi & <- & <- & ->). unfold probe. rewrite (col_idx_ok _ _ _ Hv Hi). cbn [obind]. rewrite (rd_Ok _ _ _ Hi). cbn [obind]. rewrite decide_False by tauto.
    set (lk := take (f_rows lhs) (c_cells c)) in *. rewrite <- Hlen. unfold for_up, pairs. rewrite Nat.sub_0_r. generalize (res, 0) as s.
    assert (H : forall n, n <= length lk -> forall s, forn n 0 (fun l s => let* k := get_cell (c_ty c) lhs i l in match find_rows k m with Some rs => over (fun r s0 => emit schema lhs rhs l r s0) rs s | None => Ok s end) s = over (fun p s => emit schema lhs rhs p.1 p.2 s) (pairs_to lk rk n) s); [|by apply H].
    induction n as [|n IH]; intros Hn s; [done|]. change (S n) with (1 + n) at 1. rewrite forn_snoc. cbn [plus]. rewrite IH by lia. destruct (lookup_lt_is_Some_2 lk n ltac:(lia)) as [k Hk]. rewrite (pairs_to_S _ _ _ _ Hk), over_app.
    destruct (over _ (pairs_to lk rk n) s) as [t| |]; cbn [obind]; [|done|done]. rewrite (get_cell_ok _ _ _ _ _ Hv Hi Hk). cbn [obind]. rewrite over_fmap. cbn [fst snd]. rewrite <- (Hm k). destruct (find_rows k m); done.
  Qed.

  (** ** result rows *)
  Context (lhs rhs : frame V L) (Hl : valid lhs) (Hr : valid rhs).
  Let cols := f_cols lhs ++ f_cols rhs.
  Let ncl := length (f_cols lhs).
  (** The value of column [c] of the result for the pair [p]. *)
  Definition src (p : nat * nat) (c : nat) : option V := if decide (c < ncl) then cell lhs p.1 c else cell rhs p.2 (c - ncl).
  Definition inside (p : nat * nat) : Prop := p.1 < f_rows lhs /\ p.2 < f_rows rhs.
  Context (cap : nat) (junk : nat -> list V) (Hjunk : forall c, length (junk c) = cap).
  Definition col_ok (ps : list (nat * nat)) (c : nat) (k : col V L) : Prop :=
    length (c_cells k) = cap /\ (supported (c_ty k) -> forall i p, ps !! i = Some p -> c_cells k !! i = src p c) /\ (~ supported (c_ty k) -> c_cells k = junk c).
  Definition frame_ok (res : frame V L) (ok : nat -> list (nat * nat)) : Prop :=
    f_rows res = cap /\ c_ty <$> f_cols res = c_ty <$> cols /\ c_label <$> f_cols res = c_label <$> cols /\ forall c k, f_cols res !! c = Some k -> col_ok (ok c) c k.

  Lemma set_cell_ok (res : frame V L) j k row v : f_cols res !! j = Some k -> row < f_rows res -> row < length (c_cells k) ->
    set_cell (c_ty k) res j row v = Ok (mkFrame (f_rows res) (<[j := mkCol (c_ty k) (c_label k) (<[row := v]> (c_cells k))]> (f_cols res))).
  Proof.
    intros Hj Hrow Hlen. unfold set_cell. rewrite (rd_Ok _ _ _ Hj). cbn [obind]. rewrite decide_False by tauto. rewrite decide_False by lia. rewrite wr_Ok by done. cbn [obind]. rewrite wr_Ok by (by apply lookup_lt_Some in Hj). done.
  Qed.
  Lemma set_cell_throws (res : frame V L) j k row v : f_cols res !! j = Some k -> f_rows res <= row -> set_cell (c_ty k) res j row v = Throw.
  Proof. intros Hj Hrow. unfold set_cell. rewrite (rd_Ok _ _ _ Hj). cbn [obind]. rewrite decide_False by tauto. by rewrite decide_True by lia. Qed.

  Definition set3 (ty : vtc) (res arg : frame V L) (toRow toCol fromRow fromCol : nat) : outcome (frame V L) :=
    let* res := join_set TStr ty res arg toRow toCol fromRow fromCol in
    let* res := join_set TI64 ty res arg toRow toCol fromRow fromCol in join_set TF64 ty res arg toRow toCol fromRow fromCol.
  Lemma set3_eq ty res arg toRow toCol fromRow fromCol :
    set3 ty res arg toRow toCol fromRow fromCol = if decide (supported ty) then let* v := get_cell ty arg fromCol fromRow in set_cell ty res toCol toRow v else Ok res.
  Proof.
    unfold set3, join_set. assert (E : forall m : outcome (frame V L), (let* r := m in Ok r) = m) by (by intros []).
    destruct ty as [| | |o]; repeat (case_decide; try (exfalso; unfold supported in *; naive_solver)); cbn [obind]; rewrite ?E; try done.
  Qed.

  (** one column *)
  Lemma step_ok ps p (a : frame V L) from base c res :
    (forall j, j < length (f_cols a) -> f_cols a !! j = cols !! (base + j)) -> length ps < cap -> valid a -> from < f_rows a -> c < length (f_cols a) ->
    (forall v, cell a from c = Some v -> src p (base + c) = Some v) ->
    frame_ok res (fun j => if decide (j < base + c) then ps ++ [p] else ps) ->
    exists ty res', (c_ty <$> cols) !! (base + c) = Some ty /\ set3 ty res a (length ps) (base + c) from c = Ok res' /\ frame_ok res' (fun j => if decide (j < base + (1 + c)) then ps ++ [p] else ps).
  Proof.
    intros Harg Hcap Hva Hfrom Hc Hsrc (Hrows & Hty & Hlab & Hcols). destruct (lookup_lt_is_Some_2 (f_cols a) c Hc) as [ca Hca]. pose proof Hca as Hcc. rewrite Harg in Hcc by done.
    exists (c_ty ca). cut (exists res', set3 (c_ty ca) res a (length ps) (base + c) from c = Ok res' /\ frame_ok res' (fun j => if decide (j < base + (1 + c)) then ps ++ [p] else ps)).
    { intros (res' & E1 & E2). exists res'. split; [by rewrite list_lookup_fmap, Hcc|done]. }
    assert (exists k, f_cols res !! (base + c) = Some k /\ c_ty k = c_ty ca) as (k & Hk & Etk).
    { assert (H : (c_ty <$> f_cols res) !! (base + c) = Some (c_ty ca)) by (by rewrite Hty, list_lookup_fmap, Hcc). rewrite list_lookup_fmap in H. destruct (f_cols res !! (base + c)) as [k|]; [|done]. cbn in H. injection H as H. eauto. }
    pose proof (Hcols _ _ Hk) as (Hlk & Hsup & Hun). rewrite decide_False in Hsup by lia. rewrite set3_eq. destruct (decide (supported (c_ty ca))) as [Hs|Hs].
    - pose proof (lookup_lt_is_Some_2 (c_cells ca) from) as [v Hv]; [destruct Hva as [_ Hva]; apply elem_of_list_lookup_2 in Hca; specialize (Hva ca Hca); lia|].
      rewrite (get_cell_ok a c ca from v Hva Hca) by (by rewrite lookup_take). cbn [obind]. rewrite <- Etk. rewrite (set_cell_ok res (base + c) k (length ps) v Hk) by lia. eexists. split; [done|].
      assert (Hsv : src p (base + c) = Some v). { apply Hsrc. unfold cell. rewrite decide_True by done. by rewrite Hca. }
      split; [done|]. cbn [f_cols]. split; [|split].
      + rewrite <- Hty. apply list_eq. intros j. rewrite !list_lookup_fmap. destruct (decide (j = base + c)) as [->|]; [|by rewrite list_lookup_insert_ne]. rewrite list_lookup_insert by (by apply lookup_lt_Some in Hk). by rewrite Hk.
      + rewrite <- Hlab. apply list_eq. intros j. rewrite !list_lookup_fmap. destruct (decide (j = base + c)) as [->|]; [|by rewrite list_lookup_insert_ne]. rewrite list_lookup_insert by (by apply lookup_lt_Some in Hk). by rewrite Hk.
      + intros j kj Hj. destruct (decide (j = base + c)) as [->|].
        * rewrite list_lookup_insert in Hj by (by apply lookup_lt_Some in Hk). injection Hj as <-. unfold col_ok. cbn [c_cells c_ty]. rewrite insert_length. split; [done|]. rewrite decide_True by lia. split; [|by rewrite Etk].
          intros _ i q Hq. destruct (decide (i = length ps)) as [->|Hne].
          -- rewrite lookup_app_r, Nat.sub_diag in Hq by lia. cbn in Hq. injection Hq as <-. rewrite list_lookup_insert by lia. by rewrite Hsv.
          -- rewrite lookup_app_l in Hq by (apply lookup_lt_Some in Hq; rewrite app_length in Hq; cbn in Hq; lia). rewrite list_lookup_insert_ne by done. apply Hsup; [by rewrite Etk|done].
        * rewrite list_lookup_insert_ne in Hj by done. specialize (Hcols j kj Hj). destruct (decide (j < base + c)); [by rewrite decide_True by lia|by rewrite decide_False by lia].
    - eexists. split; [done|]. split; [done|]. split; [done|]. split; [done|]. intros j kj Hj. specialize (Hcols j kj Hj). destruct (decide (j = base + c)) as [->|].
      + assert (kj = k) as -> by congruence. split; [done|]. split; [rewrite Etk; done|done].
      + destruct (decide (j < base + c)); [by rewrite decide_True by lia|by rewrite decide_False by lia].
  Qed.
  Lemma copy_ok ps p (a : frame V L) from base res :
    (forall j, j < length (f_cols a) -> f_cols a !! j = cols !! (base + j)) -> length ps < cap -> valid a -> from < f_rows a ->
    (forall c v, cell a from c = Some v -> src p (base + c) = Some v) ->
    frame_ok res (fun j => if decide (j < base) then ps ++ [p] else ps) ->
    exists res', copy_cols (c_ty <$> cols) a (length ps) from (res, base) = Ok (res', base + length (f_cols a)) /\ frame_ok res' (fun j => if decide (j < base + length (f_cols a)) then ps ++ [p] else ps).
  Proof.
    intros Harg Hcap Hva Hfrom Hsrc Hok. unfold copy_cols.
    match goal with |- context [for_up 0 ?n ?f ?s0] =>
      destruct (for_up_inv (fun c (s : frame V L * nat) => snd s = base + c /\ frame_ok (fst s) (fun j => if decide (j < base + c) then ps ++ [p] else ps)) 0 n f s0) as ([res' k'] & E & Hk & Hf) end.
    - lia.
    - cbn [fst snd]. rewrite Nat.add_0_r. done.
    - intros c [r k] Hc [Hk Hf]. cbn [fst snd] in *. subst k. destruct (step_ok ps p a from base c r Harg Hcap Hva Hfrom ltac:(lia) (Hsrc c) Hf) as (ty & r' & Hty & Hset & Hok'). rewrite (rd_Ok _ _ _ Hty). cbn [obind].
      unfold set3 in Hset. exists (r', base + c + 1). split; [|split; [cbn; lia|done]].
      destruct (join_set TStr _ _ _ _ _ _ _) as [r1| |]; cbn [obind] in *; try done. destruct (join_set TI64 _ _ _ _ _ _ _) as [r2| |]; cbn [obind] in *; try done. by rewrite Hset.
    - cbn [fst snd] in *. subst k'. rewrite E. eauto.
  Qed.
  Lemma frame_ok_ext res ok1 ok2 : frame_ok res ok1 -> (forall c, c < length cols -> ok1 c = ok2 c) -> frame_ok res ok2.
  Proof.
    intros (H1 & H2 & H3 & H4) Hext. split; [done|]. split; [done|]. split; [done|]. intros c k Hc. rewrite <- Hext; [by apply H4|]. apply lookup_lt_Some in Hc. rewrite <- (fmap_length c_ty cols), <- H2, fmap_length. done.
  Qed.
  Lemma emit_ok ps p res : length ps < cap -> inside p -> frame_ok res (fun _ => ps) ->
    exists res', emit (c_ty <$> cols) lhs rhs p.1 p.2 (res, length ps) = Ok (res', length (ps ++ [p])) /\ frame_ok res' (fun _ => ps ++ [p]).
  Proof.
    intros Hcap [H1 H2] Hok. unfold emit.
    destruct (copy_ok ps p lhs p.1 0 res) as (res1 & E1 & Hok1).
    - intros j Hj. unfold cols. by rewrite lookup_app_l.
    - done.
    - done.
    - done.
    - intros c v Hv. unfold src. cbn [plus]. rewrite decide_True; [done|]. unfold cell in Hv. rewrite decide_True in Hv by done. destruct (f_cols lhs !! c) eqn:E; [|done]. by apply lookup_lt_Some in E.
    - eapply frame_ok_ext; [exact Hok|]. intros c _. by rewrite decide_False by lia.
    - rewrite E1. cbn [obind plus]. destruct (copy_ok ps p rhs p.2 ncl res1) as (res2 & E2 & Hok2).
      + intros j Hj. unfold cols. rewrite lookup_app_r by (unfold ncl; lia). f_equal. unfold ncl. lia.
      + done.
      + done.
      + done.
      + intros c v Hv. unfold src. rewrite decide_False by lia. by replace (ncl + c - ncl) with c by lia.
      + done.
      + unfold ncl in E2 at 1. rewrite E2. cbn [obind fst]. eexists. split; [rewrite app_length; done|]. eapply frame_ok_ext; [exact Hok2|]. intros c Hc. cbn beta. unfold cols in Hc. rewrite app_length in Hc. rewrite decide_True by (unfold ncl; lia). done.
  Qed.
  Lemma emits_ok qs ps res : length ps + length qs <= cap -> Forall inside qs -> frame_ok res (fun _ => ps) ->
    exists res', over (fun p s => emit (c_ty <$> cols) lhs rhs p.1 p.2 s) qs (res, length ps) = Ok (res', length (ps ++ qs)) /\ frame_ok res' (fun _ => ps ++ qs).
  Proof.
    revert ps res. induction qs as [|q qs IH]; intros ps res Hcap Hq Hok; cbn [over]; [rewrite app_nil_r; eauto|]. cbn [length] in Hcap. apply Forall_cons in Hq as [Hq1 Hq2].
    destruct (emit_ok ps q res ltac:(lia) Hq1 Hok) as (res1 & -> & Hok1). cbn [obind]. destruct (IH (ps ++ [q]) res1) as (res2 & E & Hok2); [rewrite app_length; cbn; lia|done|done|]. assert (EA : (ps ++ [q]) ++ qs = ps ++ q :: qs) by (by rewrite <- app_assoc). rewrite EA in E, Hok2. rewrite E. eauto.
  Qed.
  (** a full result frame *)
  Lemma emit_full res ps p i c : frame_ok res (fun _ => ps) -> inside p -> f_cols lhs !! i = Some c -> supported (c_ty c) -> emit (c_ty <$> cols) lhs rhs p.1 p.2 (res, cap) = Throw.
  Proof.
    intros (Hrows & Hty & Hlab & Hcols) [H1 H2] Hi Hs. unfold emit. assert (E : copy_cols (c_ty <$> cols) lhs cap p.1 (res, 0) = Throw); [|by rewrite E].
    unfold copy_cols.
    assert (Hk : forall k ca, f_cols lhs !! k = Some ca -> exists kr, f_cols res !! k = Some kr /\ c_ty kr = c_ty ca).
    { intros k ca Hca. assert (H : (c_ty <$> f_cols res) !! k = Some (c_ty ca)). { rewrite Hty. unfold cols. rewrite list_lookup_fmap, lookup_app_l by (by apply lookup_lt_Some in Hca). by rewrite Hca. }
      rewrite list_lookup_fmap in H. destruct (f_cols res !! k) as [kr|]; [|done]. cbn in H. injection H as H. eauto. }
    assert (Hstep : forall k ca, f_cols lhs !! k = Some ca -> set3 (c_ty ca) res lhs cap k p.1 k = if decide (supported (c_ty ca)) then Throw else Ok res).
    { intros k ca Hca. rewrite set3_eq. destruct (decide (supported (c_ty ca))); [|done]. pose proof (lookup_lt_is_Some_2 (c_cells ca) p.1) as [v Hv]; [destruct Hl as [_ Hl']; pose proof (elem_of_list_lookup_2 _ _ _ Hca) as Hin; specialize (Hl' ca Hin); lia|].
      rewrite (get_cell_ok lhs k ca p.1 v Hl Hca) by (by rewrite lookup_take). cbn [obind]. destruct (Hk k ca Hca) as (kr & Hkr & <-). apply set_cell_throws; [done|lia]. }
    apply (for_up_throws_at (fun k (s : frame V L * nat) => s = (res, k)) 0 (length (f_cols lhs)) _ (res, 0) i); [apply lookup_lt_Some in Hi; lia|done| |].
    - intros k s Hkk ->. destruct (lookup_lt_is_Some_2 (f_cols lhs) k ltac:(lia)) as [ca Hca]. specialize (Hstep k ca Hca). unfold set3 in Hstep.
      assert (Et : (c_ty <$> cols) !! k = Some (c_ty ca)) by (unfold cols; rewrite list_lookup_fmap, lookup_app_l by lia; by rewrite Hca). rewrite (rd_Ok _ _ _ Et). cbn [obind].
      destruct (decide (supported (c_ty ca))).
      + left. destruct (join_set TStr _ _ _ _ _ _ _) as [r1| |]; cbn [obind] in *; try done. destruct (join_set TI64 _ _ _ _ _ _ _) as [r2| |]; cbn [obind] in *; try done. by rewrite Hstep.
      + right. exists (res, k + 1). split; [|f_equal; lia]. destruct (join_set TStr _ _ _ _ _ _ _) as [r1| |]; cbn [obind] in *; try done. destruct (join_set TI64 _ _ _ _ _ _ _) as [r2| |]; cbn [obind] in *; try done. by rewrite Hstep.
    - intros s ->. specialize (Hstep i c Hi). unfold set3 in Hstep. rewrite decide_True in Hstep by done.
      assert (Et : (c_ty <$> cols) !! i = Some (c_ty c)) by (unfold cols; rewrite list_lookup_fmap, lookup_app_l by (by apply lookup_lt_Some in Hi); by rewrite Hi). rewrite (rd_Ok _ _ _ Et). cbn [obind].
      destruct (join_set TStr _ _ _ _ _ _ _) as [r1| |]; cbn [obind] in *; try done. destruct (join_set TI64 _ _ _ _ _ _ _) as [r2| |]; cbn [obind] in *; try done. by rewrite Hstep.
  Qed.
  Lemma emits_full qs ps res i c : f_cols lhs !! i = Some c -> supported (c_ty c) -> length ps <= cap -> cap < length ps + length qs -> Forall inside qs -> frame_ok res (fun _ => ps) ->
    over (fun p s => emit (c_ty <$> cols) lhs rhs p.1 p.2 s) qs (res, length ps) = Throw.
  Proof.
    intros Hi Hs. revert ps res. induction qs as [|q qs IH]; intros ps res Hle Hcap Hq Hok; cbn [over length] in *; [lia|]. apply Forall_cons in Hq as [Hq1 Hq2]. destruct (decide (length ps = cap)) as [E|].
    - rewrite E. by rewrite (emit_full res ps q i c).
    - destruct (emit_ok ps q res ltac:(lia) Hq1 Hok) as (res1 & -> & Hok1). cbn [obind]. apply IH; [rewrite app_length; cbn; lia|rewrite app_length; cbn; lia|done|done].
  Qed.
End Proofs.

(** * C32 *)
Section C32.
  Context {V L : Type} `{EqDecision V} `{EqDecision L}.
  Implicit Types (lhs rhs res : frame V L).
  Definition headers (f : frame V L) : list (vtc * L) := (fun c => (c_ty c, c_label c)) <$> f_cols f.
  Definition source lhs rhs (p : nat * nat) (c : nat) : option V :=
    if decide (c < length (f_cols lhs)) then cell lhs p.1 c else cell rhs p.2 (c - length (f_cols lhs)).

  Lemma create_ok junk cap lhs rhs : (forall c n, length (junk c n) = n) -> NoDup ((c_label <$> f_cols lhs) ++ (c_label <$> f_cols rhs)) ->
    exists res, create_frame junk cap ((c_ty <$> f_cols lhs) ++ (c_ty <$> f_cols rhs)) ((c_label <$> f_cols lhs) ++ (c_label <$> f_cols rhs)) = Ok res /\ frame_ok lhs rhs cap (fun c => junk c cap) res (fun _ => []).
  Proof.
    intros Hj Hnd. unfold create_frame. rewrite decide_True by done. eexists. split; [done|]. split; [done|]. cbn [f_cols]. rewrite <- !fmap_app. split; [|split].
    - apply list_eq. intros i. rewrite !list_lookup_fmap, list_lookup_imap. rewrite lookup_zip_with, !list_lookup_fmap. by destruct ((f_cols lhs ++ f_cols rhs) !! i).
    - apply list_eq. intros i. rewrite !list_lookup_fmap, list_lookup_imap. rewrite lookup_zip_with, !list_lookup_fmap. by destruct ((f_cols lhs ++ f_cols rhs) !! i).
    - intros c k Hk. rewrite list_lookup_imap in Hk. destruct (zip _ _ !! c) as [[t l]|]; [|done]. cbn in Hk. injection Hk as <-. split; [apply Hj|]. split; [|done]. intros _ i p Hp. done.
  Qed.
  Lemma matches_inside lhs rhs lhsOn rhsOn t lk rk ps : valid lhs -> valid rhs -> key_column lhs lhsOn t lk -> key_column rhs rhsOn t rk -> matches lk rk ps -> Forall (inside lhs rhs) ps.
  Proof.
    intros Vl Vr Kl Kr [_ Hm]. apply Forall_forall. intros [l r] Hin. apply Hm in Hin as (k & H1 & H2). split; cbn; [rewrite <- (key_length _ _ _ _ Vl Kl)|rewrite <- (key_length _ _ _ _ Vr Kr)]; by eapply lookup_lt_Some.
  Qed.
  Lemma join_reduces junk lhs rhs lhsOn rhsOn t lk rk n : (forall c k, length (junk c k) = k) -> valid lhs -> valid rhs -> key_column lhs lhsOn t lk -> key_column rhs rhsOn t rk -> t = TStr \/ t = TI64 ->
    NoDup ((c_label <$> f_cols lhs) ++ (c_label <$> f_cols rhs)) ->
    exists res, frame_ok lhs rhs (match n with None => f_rows rhs * f_rows lhs | Some k => k end) (fun c => junk c (match n with None => f_rows rhs * f_rows lhs | Some k => k end)) res (fun _ => []) /\
    inner_join junk lhs rhs lhsOn rhsOn n = let* s := over (fun p s => emit (c_ty <$> (f_cols lhs ++ f_cols rhs)) lhs rhs p.1 p.2 s) (pairs lk rk) (res, 0) in Ok (mkFrame (snd s) (f_cols (fst s))).
  Proof.
    intros Hj Vl Vr Kl Kr Ht Hnd. unfold inner_join. assert (Et : col_type lhs lhsOn = Ok t).
    { destruct Kl as (i & c & Hi & <- & <- & _). unfold col_type. rewrite (col_idx_ok _ _ _ Vl Hi). cbn [obind]. by rewrite (rd_Ok _ _ _ Hi). }
    rewrite Et. cbn [obind]. cbv zeta. destruct (create_ok junk (match n with None => f_rows rhs * f_rows lhs | Some k => k end) lhs rhs Hj Hnd) as (res & -> & Hok). cbn [obind]. exists res. split; [done|].
    replace (if decide (t = TStr) then TStr else TI64) with t by (by destruct Ht as [->| ->]). destruct (build_ok rhs rhsOn t rk Vr Kr) as (m & -> & Hm). cbn [obind]. rewrite <- fmap_app. by rewrite (probe_ok _ _ _ _ _ _ _ _ _ Vl Kl Hm).
  Qed.

  (** One row for each pair of rows with equal keys, in order; the cells of the columns with a supported type are those of the two rows. *)
  Theorem C32_inner_join junk lhs rhs lhsOn rhsOn t lk rk n ps : (forall c k, length (junk c k) = k) -> valid lhs -> valid rhs ->
    key_column lhs lhsOn t lk -> key_column rhs rhsOn t rk -> t = TStr \/ t = TI64 ->
    NoDup ((c_label <$> f_cols lhs) ++ (c_label <$> f_cols rhs)) ->
    matches lk rk ps -> match n with None => True | Some k => length ps <= k end ->
    exists res, inner_join junk lhs rhs lhsOn rhsOn n = Ok res /\ f_rows res = length ps /\ headers res = headers lhs ++ headers rhs /\
      forall i p c ty l, ps !! i = Some p -> headers res !! c = Some (ty, l) -> supported ty -> is_Some (cell res i c) /\ cell res i c = source lhs rhs p c.
  Proof.
    intros Hj Vl Vr Kl Kr Ht Hnd Hm Hn. destruct (join_reduces junk lhs rhs lhsOn rhsOn t lk rk n Hj Vl Vr Kl Kr Ht Hnd) as (res0 & Hok0 & ->).
    pose proof (matches_unique _ _ _ _ Hm (pairs_matches lk rk)) as Eps. rewrite <- Eps. pose proof (matches_inside _ _ _ _ _ _ _ _ Vl Vr Kl Kr Hm) as Hin.
    set (cap := match n with None => f_rows rhs * f_rows lhs | Some k => k end) in *.
    assert (Hcap : length ps <= cap). { destruct n as [k|]; [done|]. unfold cap. rewrite Eps. rewrite <- (key_length _ _ _ _ Vl Kl), <- (key_length _ _ _ _ Vr Kr). apply pairs_length. }
    destruct (emits_ok lhs rhs Vl Vr cap (fun c => junk c cap) ps [] res0 Hcap Hin Hok0) as (res & E & Hok). cbn [length app] in E. rewrite E. cbn [obind fst snd]. eexists. split; [done|]. split; [done|].
    destruct Hok as (Hrows & Hty & Hlab & Hcols). cbn [app] in Hcols. assert (Hh : headers (mkFrame (length ps) (f_cols res)) = headers lhs ++ headers rhs).
    { unfold headers. cbn [f_cols]. rewrite <- fmap_app. apply list_eq. intros i. rewrite !list_lookup_fmap. assert (H1 := f_equal (fun l => l !! i) Hty). assert (H2 := f_equal (fun l => l !! i) Hlab). cbn beta in H1, H2. rewrite !list_lookup_fmap in H1. rewrite !list_lookup_fmap in H2.
      destruct (f_cols res !! i) as [k1|], ((f_cols lhs ++ f_cols rhs) !! i) as [k2|]; cbn in *; try done. injection H1 as ->. injection H2 as ->. done. }
    split; [done|]. intros i p c ty l Hp Hc Hs. unfold headers in Hc. cbn [f_cols] in Hc. rewrite list_lookup_fmap in Hc. destruct (f_cols res !! c) as [k|] eqn:Ek; [|done]. cbn in Hc. injection Hc as <- <-.
    destruct (Hcols c k Ek) as (Hlen & Hcell & _). pose proof (lookup_lt_Some _ _ _ Hp) as Hi. assert (Ecell : cell (mkFrame (length ps) (f_cols res)) i c = c_cells k !! i). { unfold cell. cbn [f_rows f_cols]. rewrite decide_True by done. by rewrite Ek. }
    rewrite Ecell. split; [apply lookup_lt_is_Some_2; lia|]. by apply Hcell.
  Qed.
  (** A given result size that is too small is reported. *)
  Theorem C32_too_small junk lhs rhs lhsOn rhsOn t lk rk n ps : (forall c k, length (junk c k) = k) -> valid lhs -> valid rhs ->
    key_column lhs lhsOn t lk -> key_column rhs rhsOn t rk -> t = TStr \/ t = TI64 ->
    NoDup ((c_label <$> f_cols lhs) ++ (c_label <$> f_cols rhs)) ->
    matches lk rk ps -> n < length ps -> inner_join junk lhs rhs lhsOn rhsOn (Some n) = Throw.
  Proof.
    intros Hj Vl Vr Kl Kr Ht Hnd Hm Hn. destruct (join_reduces junk lhs rhs lhsOn rhsOn t lk rk (Some n) Hj Vl Vr Kl Kr Ht Hnd) as (res0 & Hok0 & ->).
    pose proof (matches_unique _ _ _ _ Hm (pairs_matches lk rk)) as Eps. rewrite <- Eps. pose proof (matches_inside _ _ _ _ _ _ _ _ Vl Vr Kl Kr Hm) as Hin. destruct Kl as (i & c & Hi & _ & Et & _).
    change (res0, 0) with (res0, length (@nil (nat * nat))). rewrite (emits_full lhs rhs Vl Vr n (fun c => junk c n) ps [] res0 i c Hi); [done| |cbn; lia|cbn; lia|done|done].
    unfold supported. rewrite Et. tauto.
  Qed.
  (** Unknown or duplicate labels and key types other than string and int64, or of different types, are rejected. *)
  Theorem C32_rejects junk lhs rhs lhsOn rhsOn n : 
    (lhsOn ∉ c_label <$> f_cols lhs) \/ ~ NoDup ((c_label <$> f_cols lhs) ++ (c_label <$> f_cols rhs)) \/ (rhsOn ∉ c_label <$> f_cols rhs) \/
    (exists t rk, valid rhs /\ key_column rhs rhsOn t rk /\ t <> TStr /\ t <> TI64) \/
    (exists t u lk rk, valid lhs /\ valid rhs /\ key_column lhs lhsOn t lk /\ key_column rhs rhsOn u rk /\ t <> u) ->
    inner_join junk lhs rhs lhsOn rhsOn n = Throw.
  Proof.
    assert (Hno : forall (f : frame V L) l, l ∉ c_label <$> f_cols f -> col_idx f l = Throw).
    { intros f l Hl. unfold col_idx. destruct (list_find _ (f_cols f)) as [[j d]|] eqn:E; [|done]. apply list_find_Some in E as (Hj & Hd & _). exfalso. apply Hl. apply elem_of_list_fmap. exists d. split; [done|]. by apply elem_of_list_lookup_2 in Hj. }
    assert (Hct : col_type lhs lhsOn = Throw \/ exists tl, col_type lhs lhsOn = Ok tl).
    { unfold col_type, col_idx. destruct (list_find _ (f_cols lhs)) as [[j d]|] eqn:E; [|by left]. apply list_find_Some in E as (Hj & _). cbn [obind]. rewrite (rd_Ok _ _ _ Hj). right. eauto. }
    unfold inner_join. intros H. destruct Hct as [->|(tl & Etl)]; [done|]. destruct H as [H|H]; [unfold col_type; by rewrite (Hno _ _ H)|]. rewrite Etl. cbn [obind]. cbv zeta. unfold create_frame. case_decide as Hnd; [|done]. cbn [obind]. destruct H as [H|[H|[H|H]]]; [done| | |].
    - unfold build. by rewrite (Hno _ _ H).
    - destruct H as (t & rk & Vr & (i & c & Hi & <- & <- & _) & H1 & H2). unfold build. rewrite (col_idx_ok _ _ _ Vr Hi). cbn [obind]. rewrite (rd_Ok _ _ _ Hi). cbn [obind]. rewrite decide_True; [done|]. case_decide; done.
    - destruct H as (t & u & lk & rk & Vl & Vr & Kl & Kr & Hne). assert (tl = t) as ->.
      { destruct Kl as (i & c & Hi & <- & <- & _). unfold col_type in Etl. rewrite (col_idx_ok _ _ _ Vl Hi) in Etl. cbn [obind] in Etl. rewrite (rd_Ok _ _ _ Hi) in Etl. by injection Etl. }
      set (k := if decide (t = TStr) then TStr else TI64). destruct (decide (u = k)) as [->|Hu].
      + destruct (build_ok rhs rhsOn k rk Vr Kr) as (m & -> & _). cbn [obind]. unfold probe. destruct Kl as (i & c & Hi & <- & <- & _). rewrite (col_idx_ok _ _ _ Vl Hi). cbn [obind]. rewrite (rd_Ok _ _ _ Hi). cbn [obind]. by rewrite decide_True.
      + unfold build. destruct Kr as (i & c & Hi & <- & <- & _). rewrite (col_idx_ok _ _ _ Vr Hi). cbn [obind]. rewrite (rd_Ok _ _ _ Hi). cbn [obind]. by rewrite decide_True.
  Qed.

  (** ** semi join *)
  (** The left rows whose key occurs on the right, in order. *)
  Definition semi_rows (lk rk : list V) (ts : list nat) : Prop := StronglySorted lt ts /\ forall l, l ∈ ts <-> exists k, lk !! l = Some k /\ k ∈ rk.
  Definition semi_to (lk rk : list V) (n : nat) : list nat := filter (fun l => Is_true (match lk !! l with Some k => bool_decide (k ∈ rk) | None => false end)) (seq 0 n).
  Lemma semi_to_S lk rk n k : lk !! n = Some k -> semi_to lk rk (S n) = semi_to lk rk n ++ (if decide (k ∈ rk) then [n] else []).
  Proof.
    intros Hk. unfold semi_to. rewrite seq_S, filter_app. f_equal. rewrite filter_cons, filter_nil. cbn [plus]. rewrite Hk. destruct (decide (k ∈ rk)) as [Hin|Hin].
    - rewrite decide_True; [done|]. by apply bool_decide_pack.
    - rewrite decide_False; [done|]. intros H. by apply bool_decide_unpack in H.
  Qed.
  Lemma semi_to_in lk rk n l : l ∈ semi_to lk rk n <-> l < n /\ exists k, lk !! l = Some k /\ k ∈ rk.
  Proof.
    unfold semi_to. rewrite elem_of_list_filter, elem_of_seq. split.
    - intros [H Hl]. split; [lia|]. destruct (lk !! l) as [k|]; [|done]. exists k. split; [done|]. by apply bool_decide_unpack in H.
    - intros (Hl & k & -> & Hk). split; [by apply bool_decide_pack|lia].
  Qed.
  Lemma filter_sorted (P : nat -> Prop) `{forall x, Decision (P x)} l : StronglySorted lt l -> StronglySorted lt (filter P l).
  Proof.
    induction 1 as [|x l Hl IH Hx]; [constructor|]. rewrite filter_cons. destruct (decide _); [|done]. constructor; [done|]. apply Forall_forall. intros y Hy. apply elem_of_list_filter in Hy as [_ Hy]. rewrite Forall_forall in Hx. by apply Hx.
  Qed.
  Lemma lt_ss_unique l m : StronglySorted lt l -> StronglySorted lt m -> (forall x, x ∈ l <-> x ∈ m) -> l = m.
  Proof.
    intros Hl. revert m. induction Hl as [|x l Hl IH Hx]; intros m Hm Hin; destruct Hm as [|y m Hm Hy]; [done|exfalso; specialize (proj2 (Hin y)); intros H; by apply elem_of_nil in H; [|by left]|exfalso; specialize (proj1 (Hin x)); intros H; by apply elem_of_nil in H; [|by left]|].
    rewrite Forall_forall in Hx, Hy. assert (x = y) as ->.
    { pose proof (proj1 (Hin x) ltac:(by left)) as H1. pose proof (proj2 (Hin y) ltac:(by left)) as H2. apply elem_of_cons in H1 as [->|H1]; [done|]. apply elem_of_cons in H2 as [->|H2]; [done|]. specialize (Hx _ H2). specialize (Hy _ H1). lia. }
    f_equal. apply IH; [done|]. intros z. split; intros Hz.
    - pose proof (proj1 (Hin z) ltac:(by right)) as H. apply elem_of_cons in H as [->|]; [|done]. specialize (Hx _ Hz). lia.
    - pose proof (proj2 (Hin z) ltac:(by right)) as H. apply elem_of_cons in H as [->|]; [|done]. specialize (Hy _ Hz). lia.
  Qed.
  Lemma semi_rows_eq lk rk ts : semi_rows lk rk ts -> ts = semi_to lk rk (length lk).
  Proof.
    intros [Hs Hin]. apply lt_ss_unique; [done|apply filter_sorted, seq_sorted'|]. intros x. rewrite Hin, semi_to_in. split; [|tauto]. intros (k & Hk & ?). split; [by apply lookup_lt_Some in Hk|eauto].
  Qed.
  Lemma semi_col_ok jv jt cap lk rk st vs0 ts0 n :
    match st with Some s => s = (vs0, ts0, n) | None => n = match cap with None => length lk | Some n => n end /\ vs0 = jv n /\ ts0 = jt n end ->
    n <= length vs0 -> n <= length ts0 ->
    if decide (length (semi_to lk rk (length lk)) <= n) then
      exists vs ts, semi_col jv jt cap lk rk st = Ok (vs, ts, length (semi_to lk rk (length lk))) /\ length vs = length vs0 /\ length ts = length ts0 /\
        forall j l, semi_to lk rk (length lk) !! j = Some l -> ts !! j = Some l /\ vs !! j = lk !! l
    else semi_col jv jt cap lk rk st = Throw.
  Proof.
    intros Hst Hv Ht. unfold semi_col.
    match goal with |- context [for_up 0 (length rk) ?f []] => destruct (for_up_inv (fun i (hs : list V) => forall v, v ∈ hs <-> v ∈ take i rk) 0 (length rk) f []) as (hs & -> & Hhs) end.
    { lia. } { done. }
    { intros i hs Hi Hhs. destruct (lookup_lt_is_Some_2 rk i ltac:(lia)) as [v Hvi]. rewrite (rd_Ok _ _ _ Hvi). cbn [obind]. eexists. split; [done|]. intros w. cbn [plus]. rewrite (take_S_r _ _ _ Hvi), elem_of_app, elem_of_list_singleton, <- Hhs. case_decide; [|rewrite elem_of_cons; tauto]. split; [tauto|]. intros [Hw|Hw]; [done|by subst w]. }
    rewrite take_ge in Hhs by lia. cbn [obind]. cbv zeta.
    assert (Est : match st with Some (_, _, n) => n | None => match cap with None => length lk | Some n => n end end = n). { destruct st as [[[? ?] ?]|]; [by injection Hst|by destruct Hst]. }
    rewrite Est. assert (Evt : match st with Some (vs, ts, _) => (vs, ts) | None => (jv n, jt n) end = (vs0, ts0)). { destruct st as [[[? ?] ?]|]; [by injection Hst as -> -> ->|by destruct Hst as (_ & -> & ->)]. }
    rewrite Evt. cbn [fst snd].
    set (P := fun i (s : list V * list nat * nat) => let '(vs, ts, pos) := s in pos = length (semi_to lk rk i) /\ pos <= n /\ length vs = length vs0 /\ length ts = length ts0 /\ forall j l, semi_to lk rk i !! j = Some l -> ts !! j = Some l /\ vs !! j = lk !! l).
    assert (Hstep : forall i s, 0 <= i < length lk -> P i s ->
      let m := (let '(vs, ts, pos) := s in let* v := rd lk i in if decide (v ∈ hs) then if decide (n <= pos) then Throw else let* vs := wr vs pos v in let* ts := wr ts pos i in Ok (vs, ts, pos + 1) else Ok s) in
      if decide (length (semi_to lk rk (S i)) <= n) then exists s', m = Ok s' /\ P (S i) s' else m = Throw).
    { intros i [[vs ts] pos] Hi (-> & Hpos & Hlv & Hlt & Hc). cbn zeta. destruct (lookup_lt_is_Some_2 lk i ltac:(lia)) as [v Hvi]. rewrite (rd_Ok _ _ _ Hvi). cbn [obind]. pose proof (semi_to_S lk rk i v Hvi) as ES. destruct (decide (v ∈ hs)) as [Hin|Hin].
      - rewrite (decide_True (P := v ∈ rk)) in ES by (by apply Hhs). destruct (decide (n <= length (semi_to lk rk i))).
        + rewrite decide_False; [done|]. rewrite ES, app_length. cbn. lia.
        + rewrite decide_True by (rewrite ES, app_length; cbn; lia). rewrite wr_Ok by lia. cbn [obind]. rewrite wr_Ok by lia. cbn [obind]. eexists. split; [done|]. unfold P. rewrite ES, app_length, !insert_length. split; [done|]. split; [cbn; lia|]. split; [done|]. split; [done|].
          intros j l Hj. destruct (decide (j = length (semi_to lk rk i))) as [->|Hne].
          * rewrite lookup_app_r, Nat.sub_diag in Hj by lia. cbn in Hj. injection Hj as <-. rewrite !list_lookup_insert by lia. by rewrite Hvi.
          * rewrite lookup_app_l in Hj by (apply lookup_lt_Some in Hj; rewrite app_length in Hj; cbn in Hj; lia). rewrite !list_lookup_insert_ne by done. by apply Hc.
      - rewrite (decide_False (P := v ∈ rk)) in ES by (by rewrite <- Hhs). rewrite app_nil_r in ES. rewrite decide_True by (by rewrite ES). eexists. split; [done|]. unfold P. rewrite ES. done. }
    assert (HP0 : P 0 (vs0, ts0, 0)). { split; [done|]. split; [lia|]. split; [done|]. split; [done|]. intros j l Hj. done. }
    assert (Hmono : forall i, i <= length lk -> length (semi_to lk rk i) <= length (semi_to lk rk (length lk))).
    { intros i Hi. unfold semi_to. replace (length lk) with (i + (length lk - i)) by lia. rewrite seq_app, filter_app, app_length. lia. }
    assert (Hmono1 : forall i, i < length lk -> length (semi_to lk rk (S i)) <= 1 + length (semi_to lk rk i)).
    { intros i Hi. destruct (lookup_lt_is_Some_2 lk i Hi) as [v Hvi]. rewrite (semi_to_S _ _ _ _ Hvi), app_length. case_decide; cbn; lia. }
    destruct (decide (length (semi_to lk rk (length lk)) <= n)) as [Hfit|Hno].
    - match goal with |- context [for_up 0 (length lk) ?f ?s0] => destruct (for_up_inv P 0 (length lk) f s0) as ([[vs ts] pos] & E & HP) end; [lia|done| |].
      + intros i s Hi HP. specialize (Hstep i s Hi HP). cbn zeta in Hstep. rewrite decide_True in Hstep by (specialize (Hmono (S i) ltac:(lia)); lia). exact Hstep.
      + rewrite E. destruct HP as (-> & _ & Hlv & Hlt & Hc). eauto 10.
    - assert (Hk : exists k, k < length lk /\ length (semi_to lk rk k) <= n /\ n < length (semi_to lk rk (S k))).
      { clear -Hno. assert (H : forall m, n < length (semi_to lk rk m) -> exists k, k < m /\ length (semi_to lk rk k) <= n /\ n < length (semi_to lk rk (S k))).
        { induction m as [|m IH]; intros Hm; [cbn in Hm; lia|]. destruct (decide (n < length (semi_to lk rk m))) as [H|H]; [destruct (IH H) as (k & ? & ?); exists k; split; [lia|done]|]. exists m. split; [lia|]. split; [lia|done]. }
        apply H. lia. }
      destruct Hk as (k & Hkl & Hk1 & Hk2). apply (for_up_throws_at P 0 (length lk) _ _ k); [lia|done| |].
      + intros i s Hi HP. specialize (Hstep i s Hi HP). cbn zeta in Hstep. destruct (decide _); [by right|by left].
      + intros s HP. specialize (Hstep k s ltac:(lia) HP). cbn zeta in Hstep. rewrite decide_False in Hstep by lia. exact Hstep.
  Qed.
  Theorem C32_semi_join jv jt lhs rhs lhsOn rhsOn lk rk n ts : (forall k, length (jv k) = k) -> (forall k, length (jt k) = k) -> valid lhs -> valid rhs ->
    key_column lhs lhsOn TI64 lk -> key_column rhs rhsOn TI64 rk -> semi_rows lk rk ts -> match n with None => True | Some k => length ts <= k end ->
    exists vs, semi_join jv jt lhs rhs lhsOn rhsOn n = Ok (vs, ts) /\ length vs = length ts /\ forall i l, ts !! i = Some l -> vs !! i = lk !! l.
  Proof.
    intros Hjv Hjt Vl Vr Kl Kr Hts Hn. pose proof (key_length _ _ _ _ Vl Kl) as Ll. destruct Kl as (i & c & Hi & <- & El & Hlk). destruct Kr as (j & d & Hj & <- & Er & Hrk). apply semi_rows_eq in Hts.
    unfold semi_join, col_type. rewrite (col_idx_ok _ _ _ Vl Hi), (col_idx_ok _ _ _ Vr Hj). cbn [obind]. rewrite (rd_Ok _ _ _ Hi), (rd_Ok _ _ _ Hj). cbn [obind]. rewrite decide_True by done. cbv zeta. rewrite <- Hlk, <- Hrk.
    set (cap := match n with None => length lk | Some k => k end). assert (Hcap : length ts <= cap). { destruct n as [k|]; [done|]. unfold cap. rewrite Hts. unfold semi_to. etransitivity; [apply filter_length|]. by rewrite seq_length. }
    pose proof (semi_col_ok jv jt n lk rk None (jv cap) (jt cap) cap ltac:(done) ltac:(rewrite Hjv; lia) ltac:(rewrite Hjt; lia)) as H1. rewrite <- Hts in H1. rewrite decide_True in H1 by done. destruct H1 as (vs1 & ts1 & -> & Hlv1 & Hlt1 & _). cbn [obind].
    rewrite Hjv in Hlv1. rewrite Hjt in Hlt1. pose proof (semi_col_ok jv jt n lk rk (Some (vs1, ts1, length ts)) vs1 ts1 (length ts) ltac:(done) ltac:(lia) ltac:(lia)) as H2. rewrite <- Hts in H2. rewrite decide_True in H2 by done. destruct H2 as (vs2 & ts2 & -> & Hlv2 & Hlt2 & Hc). cbn [obind].
    exists (take (length ts) vs2). split; [|split].
    - do 2 f_equal. apply list_eq_same_length with (length ts); [done|rewrite take_length; lia|]. intros k x y Hk Hx Hy. rewrite lookup_take in Hx by done. destruct (Hc k y Hy) as [E _]. congruence.
    - rewrite take_length. lia.
    - intros k l Hk. rewrite lookup_take by (by apply lookup_lt_Some in Hk). by apply Hc.
  Qed.
  Theorem C32_semi_too_small jv jt lhs rhs lhsOn rhsOn lk rk n ts : (forall k, length (jv k) = k) -> (forall k, length (jt k) = k) -> valid lhs -> valid rhs ->
    key_column lhs lhsOn TI64 lk -> key_column rhs rhsOn TI64 rk -> semi_rows lk rk ts -> n < length ts -> semi_join jv jt lhs rhs lhsOn rhsOn (Some n) = Throw.
  Proof.
    intros Hjv Hjt Vl Vr Kl Kr Hts Hn. destruct Kl as (i & c & Hi & <- & El & Hlk). destruct Kr as (j & d & Hj & <- & Er & Hrk). apply semi_rows_eq in Hts.
    unfold semi_join, col_type. rewrite (col_idx_ok _ _ _ Vl Hi), (col_idx_ok _ _ _ Vr Hj). cbn [obind]. rewrite (rd_Ok _ _ _ Hi), (rd_Ok _ _ _ Hj). cbn [obind]. rewrite decide_True by done. cbv zeta. rewrite <- Hlk, <- Hrk.
    pose proof (semi_col_ok jv jt (Some n) lk rk None (jv n) (jt n) n ltac:(done) ltac:(rewrite Hjv; lia) ltac:(rewrite Hjt; lia)) as H1. rewrite <- Hts in H1. rewrite decide_False in H1 by lia. by rewrite H1.
  Qed.
End C32.

(** A column whose type is neither string, int64 nor double is left uninitialised by the inner join. *)
Theorem C32_other_types_refuted : forall junk : nat -> nat -> list nat, (forall c k, length (junk c k) = k) ->
  exists res, inner_join junk (mkFrame 1 [mkCol TI64 0 [7]; mkCol (TOther 0) 1 [5]]) (mkFrame 1 [mkCol TI64 2 [7]]) 0 2 None = Ok res /\ f_rows res = 1 /\ cell res 0 1 = junk 1 1 !! 0.
Proof.
  intros junk Hj. assert (E : forall c, exists v, junk c 1 = [v]). { intros c. specialize (Hj c 1). destruct (junk c 1) as [|v [|]]; try done. by exists v. }
  destruct (E 0) as [v0 E0], (E 1) as [v1 E1], (E 2) as [v2 E2]. eexists. split; [|split].
  - unfold inner_join. cbn -[create_frame emit over]. unfold create_frame. rewrite decide_True by (by apply (bool_decide_unpack _)). cbn. rewrite E0, E1, E2. cbn. done.
  - done.
  - rewrite E1. done.
Qed.
(** The semi join of columns of another type (here strings) dereferences a null pointer. *)
Theorem C32_semi_types_refuted : semi_join (fun k => replicate k 0) (fun k => replicate k 0) (mkFrame 1 [mkCol TStr 0 [7]]) (mkFrame 1 [mkCol TStr 0 [7]]) 0 0 None = UB.
Proof. done. Qed.

Definition ex_l : frame nat nat := mkFrame 3 [mkCol TI64 0 [1; 2; 1]; mkCol TF64 1 [10; 20; 30]].
Definition ex_r : frame nat nat := mkFrame 4 [mkCol TStr 2 [5; 6; 7; 8]; mkCol TI64 3 [1; 3; 1; 2]].
Example C32_ex_join : inner_join (fun _ k => replicate k 99) ex_l ex_r 0 3 (Some 6) =
  Ok (mkFrame 5 [mkCol TI64 0 [1; 1; 2; 1; 1; 99]; mkCol TF64 1 [10; 10; 20; 30; 30; 99]; mkCol TStr 2 [5; 7; 8; 5; 7; 99]; mkCol TI64 3 [1; 1; 2; 1; 1; 99]]).
Proof. vm_compute. done. Qed.
Example C32_ex_semi : semi_join (fun k => replicate k 99) (fun k => replicate k 99) ex_l ex_r 0 3 None = Ok ([1; 2; 1], [0; 1; 2]).
Proof. done. Qed.
Example C32_ex_hyps : valid ex_l /\ valid ex_r /\ key_column ex_l 0 TI64 [1; 2; 1] /\ key_column ex_r 3 TI64 [1; 3; 1; 2] /\ NoDup ((c_label <$> f_cols ex_l) ++ (c_label <$> f_cols ex_r)) /\
  matches [1; 2; 1] [1; 3; 1; 2] [(0, 0); (0, 2); (1, 3); (2, 0); (2, 2)].
Proof.
  split; [|split; [|split; [|split; [|split]]]].
  - split; [by apply (bool_decide_unpack _)|]. intros c Hc. repeat (apply elem_of_cons in Hc as [->|Hc]; [cbn; lia|]). by apply elem_of_nil in Hc.
  - split; [by apply (bool_decide_unpack _)|]. intros c Hc. repeat (apply elem_of_cons in Hc as [->|Hc]; [cbn; lia|]). by apply elem_of_nil in Hc.
  - exists 0, (mkCol TI64 0 [1; 2; 1]). done.
  - exists 1, (mkCol TI64 3 [1; 3; 1; 2]). done.
  - by apply (bool_decide_unpack _).
  - exact (pairs_matches [1; 2; 1] [1; 3; 1; 2]).
Qed.

Print Assumptions C32_inner_join. Print Assumptions C32_too_small. Print Assumptions C32_semi_join. Print Assumptions C32_semi_too_small. Print Assumptions C32_rejects.
