(** Loops over the entries of a sparse matrix, and rows as partial functions from columns to values. Used by the proofs about the
    sparse kernels. *)
From stdpp Require Import base numbers sorting list list_numbers.
From Coq Require Import Lia.
From Verif Require Import CppBase Mem ListUtil CSRModel CSRSpec CSRProofs CSRView PipelineModel PipelineSpec PipelineProofs PipelineAgg SinkModel SinkSpec SinkProofs.

Lemma ofold_app {A St} (f : A -> St -> outcome St) l l' s : ofold f (l ++ l') s = (let* t := ofold f l s in ofold f l' t).
Proof. revert s. induction l as [|x l IH]; intros s; [done|]. cbn [app ofold]. destruct (f x s); cbn [obind]; auto. Qed.
Lemma ofold_fmap {A B St} (g : A -> B) (f : B -> St -> outcome St) l s : ofold f (g <$> l) s = ofold (fun x => f (g x)) l s.
Proof. revert s. induction l as [|x l IH]; intros s; [done|]. rewrite fmap_cons. cbn [ofold]. destruct (f (g x) s); cbn [obind]; auto. Qed.
Lemma ofold_inv {A St} (P : list A -> St -> Prop) (f : A -> St -> outcome St) l s :
  P [] s -> (forall pre x post s, l = pre ++ x :: post -> P pre s -> exists s', f x s = Ok s' /\ P (pre ++ [x]) s') ->
  exists s', ofold f l s = Ok s' /\ P l s'.
Proof.
  intros H0 Hs. assert (Hx : forall post pre s, l = pre ++ post -> P pre s -> exists s', ofold f post s = Ok s' /\ P l s').
  { induction post as [|x post IH]; intros pre t E Hp.
    - rewrite app_nil_r in E. subst. by exists t.
    - cbn [ofold]. destruct (Hs pre x post t E Hp) as (t' & -> & Hp'). cbn [obind]. apply (IH (pre ++ [x])); [by rewrite <- app_assoc|done]. }
  by apply (Hx l []).
Qed.
Lemma forn_ofold {A St} (f : nat -> St -> outcome St) (g : A -> St -> outcome St) (l : list A) lo s :
  (forall i x s, l !! i = Some x -> f (lo + i) s = g x s) -> forn (length l) lo f s = ofold g l s.
Proof.
  revert lo s. induction l as [|x l IH]; intros lo s Hf; [done|]. cbn [length forn ofold].
  rewrite <- (Nat.add_0_r lo) at 1. rewrite (Hf 0 x) by done. destruct (g x s); cbn [obind]; [|done|done].
  apply IH. intros i y t Hi. rewrite <- (Hf (S i)) by done. f_equal. lia.
Qed.
Lemma for_up_ofold {A St} (f : nat -> St -> outcome St) (g : A -> St -> outcome St) (l : list A) lo hi s :
  hi = lo + length l -> (forall i x s, l !! i = Some x -> f (lo + i) s = g x s) -> for_up lo hi f s = ofold g l s.
Proof. intros -> Hf. unfold for_up. replace (lo + length l - lo) with (length l) by lia. by apply forn_ofold. Qed.
Lemma ofold_concat {A St} (f : A -> St -> outcome St) (ls : list (list A)) s : ofold (fun l t => ofold f l t) ls s = ofold f (concat ls) s.
Proof. revert s. induction ls as [|l ls IH]; intros s; [done|]. cbn [ofold concat]. rewrite ofold_app. destruct (ofold f l s); cbn [obind]; auto. Qed.

Lemma elem_of_concat {A} (ls : list (list A)) x : x ∈ concat ls <-> exists l, x ∈ l /\ l ∈ ls.
Proof.
  induction ls as [|l ls IH]; [split; [by intros ?%elem_of_nil|by intros (l & _ & ?%elem_of_nil)]|]. cbn [concat]. rewrite elem_of_app, IH. split.
  - intros [Hx|(l' & Hx & Hl)]; [exists l; split; [done|left]|exists l'; split; [done|by right]].
  - intros (l' & Hx & [->|Hl]%elem_of_cons); [by left|right; eauto].
Qed.

Section rows.
Context {V : Type} `{Val V}.

(** All entries (row, column, value) in the order of the rows. *)
Definition triples_from (k : nat) (rs : list (row V)) : list (nat * nat * V) := concat (imap (fun r l => (fun e => (k + r, fst e, snd e)) <$> l) rs).
Definition triples := triples_from 0.
Lemma triples_cons k l rs : triples_from k (l :: rs) = ((fun e => (k, fst e, snd e)) <$> l) ++ triples_from (S k) rs.
Proof.
  unfold triples_from. rewrite imap_cons. cbn [concat]. rewrite Nat.add_0_r. f_equal. f_equal. apply imap_ext. intros i x _. simpl. by replace (k + S i) with (S (k + i)) by lia.
Qed.
Lemma triples_length k rs : length (triples_from k rs) = stored rs.
Proof. revert k. induction rs as [|l rs IH]; intros k; [done|]. rewrite triples_cons, app_length, fmap_length, IH. unfold stored. cbn [concat]. by rewrite app_length. Qed.

Lemma entries_loop {St} b h base rs (body : nat -> nat -> St -> outcome St) (step : nat * nat * V -> St -> outcome St) s :
  csr_reads b h base rs ->
  (forall r j c v t, r < h_rows h -> bcols b !! j = Some c -> bvals b !! j = Some v -> c < h_cols h -> body r j t = step (r, c, v) t) ->
  for_up 0 (h_rows h) (fun r t => let* a := roff b h r in let* e := roff b h (r + 1) in for_up a e (body r) t) s = ofold step (triples rs) s.
Proof.
  intros HR Hb. unfold triples, triples_from. rewrite <- ofold_concat. rewrite <- (rd_rows _ _ _ _ HR).
  apply for_up_ofold; [by rewrite imap_length|]. intros r l' t Hl'. rewrite list_lookup_imap in Hl'. destruct (rs !! r) as [l|] eqn:Hl; [|done]. cbn in Hl'. injection Hl' as <-.
  assert (Hrl : r < length rs) by (by eapply lookup_lt_Some). change (0 + r) with r.
  rewrite !(rd_off _ _ _ _ HR) by lia. cbn [obind]. replace (r + 1) with (S r) by lia. rewrite (stored_take_S _ _ _ Hl), ofold_fmap.
  apply for_up_ofold; [lia|]. intros i e u He. destruct (reads_entry _ _ _ _ _ _ _ _ HR Hl He) as [H1 H2]. apply Hb; [rewrite <- (rd_rows _ _ _ _ HR); done|done|done|].
  pose proof (rd_ok _ _ _ _ HR) as Hok. rewrite Forall_lookup in Hok. destruct (Hok _ _ Hl) as [_ Hin]. rewrite Forall_lookup in Hin. apply (Hin i). by rewrite list_lookup_fmap, He.
Qed.

(** A row as a partial function. *)
Fixpoint find_col (c : nat) (l : row V) : option V :=
  match l with [] => None | (k, v) :: l' => if decide (k = c) then Some v else find_col c l' end.
Lemma cell_in_find c l : cell_in c l = default vzero (find_col c l).
Proof. induction l as [|[k v] l IH]; [done|]. cbn [cell_in find_col]. by destruct (decide (k = c)). Qed.
Lemma find_col_None c l : find_col c l = None <-> c ∉ l.*1.
Proof.
  induction l as [|[k v] l IH]; [split; [intros _; apply not_elem_of_nil|done]|]. rewrite fmap_cons, not_elem_of_cons. cbn [find_col fst].
  destruct (decide (k = c)) as [->|Hn]; [split; [done|by intros [? _]]|]. rewrite IH. split; [by split|by intros [_ ?]].
Qed.
Lemma find_col_Some c v l : find_col c l = Some v -> (c, v) ∈ l.
Proof.
  induction l as [|[k w] l IH]; [done|]. cbn [find_col]. destruct (decide (k = c)) as [->|Hn]; [intros [= ->]; left|]. intros H1. right. auto.
Qed.
Lemma find_col_elem c v l : StronglySorted lt l.*1 -> (c, v) ∈ l -> find_col c l = Some v.
Proof.
  induction l as [|[k w] l IH]; [by intros _ ?%elem_of_nil|]. rewrite fmap_cons. cbn [find_col fst]. intros Hs%StronglySorted_inv Hin. destruct Hs as [Hs Hf].
  apply elem_of_cons in Hin as [[= -> ->]|Hin]; [by rewrite decide_True|].
  rewrite decide_False; [auto|]. intros ->. rewrite Forall_forall in Hf. assert (c < c); [|lia]. apply Hf. apply elem_of_list_fmap. by exists (c, v).
Qed.
Lemma find_col_ents (G : nat -> nat -> option V) a b r c : find_col c (ents G a b r) = if decide (a <= c < b) then G r c else None.
Proof.
  unfold ents. remember (b - a) as k eqn:Hk. revert a Hk. induction k as [|k IH]; intros a Hk.
  - cbn [seq omap list_omap find_col]. by rewrite decide_False by lia.
  - cbn [seq omap list_omap]. specialize (IH (S a) ltac:(lia)).
    destruct (G r a) as [v|] eqn:Hv; cbn [fmap option_fmap option_map].
    + cbn [find_col]. destruct (decide (a = c)) as [->|Hn]; [by rewrite decide_True by lia|]. etransitivity; [exact IH|].
      destruct (decide (S a <= c < b)); [by rewrite decide_True by lia|by rewrite decide_False by lia].
    + etransitivity; [exact IH|]. destruct (decide (S a <= c < b)); [by rewrite decide_True by lia|].
      destruct (decide (a <= c < b)); [|done]. assert (a = c) by lia. by subst.
Qed.
(** A row in order is determined by what it stores in each column. *)
Lemma row_ents m l : row_ok m l -> ents (fun _ c => find_col c l) 0 m 0 = l.
Proof.
  intros [Hs Hf]. unfold ents. rewrite Nat.sub_0_r.
  assert (Hx : forall k a, StronglySorted lt l.*1 -> Forall (fun c => a <= c < a + k) l.*1 -> omap (fun c => (fun v => (c, v)) <$> find_col c l) (seq a k) = l).
  { clear Hs Hf. intros k a Hs. revert k a. induction l as [|[c v] l IH]; intros k a Hf.
    - clear. generalize (seq a k). intros q. induction q as [|x q IH]; [done|]. cbn [omap list_omap find_col]. done.
    - rewrite fmap_cons in Hs, Hf. apply StronglySorted_inv in Hs as [Hs Hlt]. apply Forall_cons in Hf as [Hc Hf]. cbn [fst] in *.
      assert (Hsp : seq a k = seq a (c - a) ++ c :: seq (S c) (k - S (c - a))).
      { replace k with ((c - a) + S (k - S (c - a))) at 1 by lia. rewrite seq_app. by replace (a + (c - a)) with c by lia. }
      rewrite Hsp, omap_app.
      assert (E1 : omap (fun c0 => (fun w => (c0, w)) <$> find_col c0 ((c, v) :: l)) (seq a (c - a)) = []).
      { assert (Hq : Forall (fun x => x < c) (seq a (c - a))) by (apply Forall_forall; intros x ?%elem_of_seq; lia). revert Hq. generalize (seq a (c - a)). intros q Hq.
        induction q as [|x q IHq]; [done|]. apply Forall_cons in Hq as [Hx Hq]. cbn [omap list_omap]. rewrite (proj2 (find_col_None x _)).
        - cbn. by apply IHq.
        - rewrite fmap_cons, not_elem_of_cons. cbn [fst]. split; [lia|]. intros Hin. rewrite Forall_forall in Hlt. specialize (Hlt _ Hin). lia. }
      rewrite E1. cbn [app omap list_omap find_col]. rewrite decide_True by done. cbn [fmap option_fmap option_map]. f_equal.
      etransitivity; [|apply (IH Hs (k - S (c - a)) (S c))].
      + assert (Hq : Forall (fun x => c < x) (seq (S c) (k - S (c - a)))) by (apply Forall_forall; intros x ?%elem_of_seq; lia). revert Hq.
        generalize (seq (S c) (k - S (c - a))). intros q Hq. induction q as [|x q IHq]; [done|]. apply Forall_cons in Hq as [Hx Hq]. cbn [omap list_omap find_col].
        rewrite decide_False by lia. destruct (find_col x l); cbn; [f_equal|]; by apply IHq.
      + apply Forall_forall. intros x Hx. rewrite Forall_forall in Hlt, Hf. specialize (Hlt _ Hx). specialize (Hf _ Hx). lia. }
  apply Hx; [done|]. eapply Forall_impl; [exact Hf|]. simpl. lia.
Qed.
Lemma ents_ext (G G' : nat -> nat -> option V) a b r r' : (forall c, a <= c < b -> G r c = G' r' c) -> ents G a b r = ents G' a b r'.
Proof.
  intros He. unfold ents. remember (b - a) as k eqn:Hk. revert a Hk He. induction k as [|k IH]; intros a Hk He; [done|].
  cbn [seq omap list_omap]. rewrite (He a) by lia. destruct (G' r' a); cbn; [f_equal|]; apply IH; try lia; intros; apply He; lia.
Qed.
Lemma row_ext m l l' : row_ok m l -> row_ok m l' -> (forall c, c < m -> find_col c l = find_col c l') -> l = l'.
Proof. intros H1 H2 He. rewrite <- (row_ents m l H1), <- (row_ents m l' H2). apply ents_ext. intros c Hc. apply He. lia. Qed.

(** What a list of rows stores in column [c] of row [r]. *)
Definition colG (rs : list (row V)) (c r : nat) : option V := match rs !! r with Some l => find_col c l | None => None end.
Lemma colG_out m rs c r : Forall (row_ok m) rs -> m <= c -> colG rs c r = None.
Proof.
  intros Hok Hc. unfold colG. destruct (rs !! r) as [l|] eqn:Hl; [|done]. apply find_col_None. intros Hin. rewrite Forall_lookup in Hok. destruct (Hok _ _ Hl) as [_ Hf].
  rewrite Forall_forall in Hf. specialize (Hf _ Hin). simpl in Hf. lia.
Qed.
Lemma cell_colG rs r c : cell rs r c = default vzero (colG rs c r).
Proof. unfold cell, colG. destruct (rs !! r); [apply cell_in_find|done]. Qed.
Lemma elem_of_triples m rs r c v : Forall (row_ok m) rs -> (r, c, v) ∈ triples rs <-> colG rs c r = Some v.
Proof.
  intros Hok. unfold triples, triples_from. rewrite elem_of_concat. split.
  - intros (l' & Hin & (q & Hq)%elem_of_list_lookup). rewrite list_lookup_imap in Hq. destruct (rs !! q) as [l|] eqn:Hl; [|done]. injection Hq as <-.
    apply elem_of_list_fmap in Hin as ([c' v'] & [= -> -> ->] & Hin). unfold colG. cbn [plus]. rewrite Hl. apply find_col_elem; [|done]. rewrite Forall_lookup in Hok. by apply (Hok _ _ Hl).
  - unfold colG. destruct (rs !! r) as [l|] eqn:Hl; [|done]. intros Hf%find_col_Some. exists ((fun e => (r, fst e, snd e)) <$> l). split.
    + apply elem_of_list_fmap. by exists (c, v).
    + apply elem_of_list_lookup. exists r. by rewrite list_lookup_imap, Hl.
Qed.
Lemma triples_pos m rs k : Forall (row_ok m) rs -> Forall (fun t => k <= t.1.1 < k + length rs /\ t.1.2 < m) (triples_from k rs).
Proof.
  intros Hok. revert k. induction Hok as [|l rs [_ Hl] Hok IH]; intros k; [constructor|]. rewrite triples_cons. apply Forall_app. split.
  - apply Forall_fmap. rewrite Forall_fmap in Hl. eapply Forall_impl; [exact Hl|]. cbn. intros e He. split; [lia|done].
  - eapply Forall_impl; [apply IH|]. cbn [length]. intros t Ht. cbn beta in Ht. split; [lia|apply Ht].
Qed.
(** The entries are in the order of their positions in a row-major matrix. *)
Lemma triples_sorted m rs k : Forall (row_ok m) rs -> StronglySorted (fun t u : nat * nat * V => t.1.1 * m + t.1.2 < u.1.1 * m + u.1.2) (triples_from k rs).
Proof.
  intros Hok. revert k. induction Hok as [|l rs [Hs Hl] Hok IH]; intros k; [constructor|]. rewrite triples_cons.
  pose proof (triples_pos m rs (S k) Hok) as Hp. specialize (IH (S k)). revert IH Hp. generalize (triples_from (S k) rs). intros T IH Hp.
  induction l as [|[c v] l IHl]; [done|]. rewrite fmap_cons in Hs, Hl. rewrite fmap_cons. apply StronglySorted_inv in Hs as [Hs Hlt]. apply Forall_cons in Hl as [Hc Hl]. cbn [app].
  constructor; [by apply IHl|]. cbn [fst snd] in *. apply Forall_app. split.
  - apply Forall_fmap. rewrite Forall_fmap in Hlt. eapply Forall_impl; [exact Hlt|]. cbn. intros e He. lia.
  - eapply Forall_impl; [exact Hp|]. cbn. intros t Ht. nia.
Qed.
(** The same loop, written with the number of entries of a row. *)
Lemma entries_loop2 {St} b h base rs (body : nat -> nat -> nat -> St -> outcome St) (step : nat * nat * V -> St -> outcome St) s :
  csr_reads b h base rs ->
  (forall r a i c v t, r < h_rows h -> bcols b !! (a + i) = Some c -> bvals b !! (a + i) = Some v -> c < h_cols h -> body r a i t = step (r, c, v) t) ->
  for_up 0 (h_rows h) (fun r t => let* k := csr_row_nnz b h r in let* a := roff b h r in for_up 0 k (body r a) t) s = ofold step (triples rs) s.
Proof.
  intros HR Hb. unfold triples, triples_from. rewrite <- ofold_concat. rewrite <- (rd_rows _ _ _ _ HR).
  apply for_up_ofold; [by rewrite imap_length|]. intros r l' t Hl'. rewrite list_lookup_imap in Hl'. destruct (rs !! r) as [l|] eqn:Hl; [|done]. cbn in Hl'. injection Hl' as <-.
  assert (Hrl : r < length rs) by (by eapply lookup_lt_Some). change (0 + r) with r.
  rewrite (reads_row_nnz _ _ _ _ _ _ HR Hl), (rd_off _ _ _ _ HR) by lia. cbn [obind]. rewrite ofold_fmap.
  apply for_up_ofold; [lia|]. intros i e u He. destruct (reads_entry _ _ _ _ _ _ _ _ HR Hl He) as [H1 H2]. apply Hb; [rewrite <- (rd_rows _ _ _ _ HR); done|done|done|].
  pose proof (rd_ok _ _ _ _ HR) as Hok. rewrite Forall_lookup in Hok. destruct (Hok _ _ Hl) as [_ Hin]. rewrite Forall_lookup in Hin. apply (Hin i). by rewrite list_lookup_fmap, He.
Qed.

Lemma sorted_bounded (l : list nat) : forall a k, StronglySorted lt l -> Forall (fun x => a <= x < a + k) l -> length l <= k /\ (length l = k -> l = seq a k).
Proof.
  induction l as [|x l IH]; intros a k Hs Hf; [split; [simpl; lia|]; simpl; by intros <-|].
  apply StronglySorted_inv in Hs as [Hs Hlt]. apply Forall_cons in Hf as [Hx Hf].
  destruct (IH (S x) (k - S (x - a)) Hs) as [H1 H2].
  { rewrite Forall_forall in *. intros y Hy. specialize (Hlt y Hy). specialize (Hf y Hy). lia. }
  cbn [length]. split; [lia|]. intros E. assert (x = a) by lia. subst x. destruct k as [|k]; [lia|]. cbn [seq]. f_equal. rewrite H2 by lia. f_equal. lia.
Qed.
Lemma row_ok_length m (l : row V) : row_ok m l -> length l <= m /\ (length l = m -> l.*1 = seq 0 m).
Proof. intros [Hs Hf]. rewrite <- (fmap_length fst l). apply (sorted_bounded _ 0 m); [done|]. eapply Forall_impl; [exact Hf|]. simpl. lia. Qed.
Lemma stored_uniform m (rs : list (row V)) : Forall (row_ok m) rs -> stored rs <= length rs * m /\ (stored rs = length rs * m -> Forall (fun l => length l = m) rs).
Proof.
  intros Hok. induction Hok as [|l rs Hl Hok IH]; [split; [done|constructor]|]. unfold stored in *. cbn [concat length]. rewrite app_length.
  destruct (row_ok_length _ _ Hl) as [H1 _]. destruct IH as [H2 H3]. split; [lia|]. intros E. constructor; [lia|]. apply H3. lia.
Qed.
End rows.
Lemma concat_uniform {A} (ls : list (list A)) m r c l : Forall (fun l => length l = m) ls -> ls !! r = Some l -> c < m -> concat ls !! (r * m + c) = l !! c.
Proof.
  intros Hf. revert r. induction Hf as [|l0 ls Hl Hf IH]; intros r Hr Hc; [done|]. cbn [concat]. destruct r as [|r].
  - injection Hr as ->. by rewrite lookup_app_l by (cbn; lia).
  - rewrite lookup_app_r by (rewrite Hl; nia). rewrite <- (IH r Hr Hc). f_equal. rewrite Hl. lia.
Qed.
Lemma concat_uniform_length {A} (ls : list (list A)) m : Forall (fun l => length l = m) ls -> length (concat ls) = length ls * m.
Proof. intros Hf. induction Hf as [|l0 ls Hl Hf IH]; [done|]. cbn [concat length]. rewrite app_length, IH. lia. Qed.
