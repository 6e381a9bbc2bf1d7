(** C36: the symmetry check. *)
From stdpp Require Import base numbers sorting list list_numbers.
From Coq Require Import Lia.
From Verif Require Import CppBase Mem CSRModel CSRSpec CSRProofs CSRView SinkSpec SinkProofs SparseLoops SparseSpec SymModel.

Local Open Scope nat_scope.

(** Cell (i,j) equals cell (j,i) everywhere. *)
Definition symmetric {V} (n : nat) (x : nat -> nat -> V) : Prop := forall i j, i < n -> j < n -> x i j = x j i.

Section sym.
Context {V : Type} `{Val V} (eqb : V -> V -> bool).

Lemma sym_get_spec n get (x : nat -> nat -> V) : (forall r c, r < n -> c < n -> get r c = Ok (x r c)) ->
  exists ok, sym_get eqb n n get = Ok ok /\ (ok = true <-> forall i j, i < j -> j < n -> eqb (x i j) (x j i) = true).
Proof.
  intros Hg. unfold sym_get. rewrite decide_False by (intros E; by apply E).
  match goal with |- context [for_up 0 n ?f true] =>
    destruct (for_up_inv (fun r (ok : bool) => ok = true <-> forall i j, i < r -> i < j -> j < n -> eqb (x i j) (x j i) = true) 0 n f true) as (ok & E & Hok) end.
  - lia.
  - split; [lia|done].
  - intros r ok Hr IH. cbn beta.
    match goal with |- context [for_up (r + 1) n ?f ok] =>
      destruct (for_up_inv (fun c (o : bool) => o = true <-> ok = true /\ forall j, r < j -> j < c -> eqb (x r j) (x j r) = true) (r + 1) n f ok) as (ok' & E & Hok) end.
    + lia.
    + split; [intros ->; split; [done|lia]|tauto].
    + intros c o Hc IHc. destruct o.
      * rewrite !Hg by lia. cbn [obind]. eexists. split; [done|]. destruct IHc as [IHc _]. destruct (IHc eq_refl) as [-> Hall]. split.
        -- intros He. split; [done|]. intros j Hj Hjc. destruct (decide (j = c)) as [->|]; [done|]. apply Hall; lia.
        -- intros [_ Ha]. apply Ha; lia.
      * eexists. split; [done|]. split; [done|]. intros [Ho Ha]. apply IHc. split; [done|]. intros j Hj Hjc. apply Ha; lia.
    + exists ok'. split; [exact E|]. rewrite Hok, IH. split.
      * intros [Ha Hb] i j Hi Hij Hj. destruct (decide (i = r)) as [->|]; [by apply Hb|apply Ha; lia].
      * intros Ha. split; [intros i j Hi Hij Hj; apply Ha; lia|intros j Hj Hjn; apply Ha; lia].
  - exists ok. split; [exact E|]. rewrite Hok. split; [intros Ha i j Hij Hj; apply Ha; lia|intros Ha i j _ Hij Hj; by apply Ha].
Qed.

(** Dense matrices, and the variant that uses only get: the result is true exactly if all mirrored cells compare equal. *)
Theorem C36_dense a n (x : nat -> nat -> V) : is_dense a n n x -> (forall u v, eqb u v = true <-> u = v) ->
  exists ok, sym_dense eqb a = Ok ok /\ (ok = true <-> symmetric n x).
Proof.
  intros Hd He. pose proof Hd as (Hr & Hc & _). unfold sym_dense. rewrite Hr, Hc. destruct (sym_get_spec n (dm_at a) x) as (ok & E & Hok).
  { intros r c Hrn Hcn. by eapply dm_at_Ok. }
  exists ok. split; [done|]. rewrite Hok. split.
  - intros Ha i j Hi Hj. destruct (Nat.lt_trichotomy i j) as [Hlt|[->|Hlt]]; [apply He; by apply Ha|done|]. symmetry. apply He. by apply Ha.
  - intros Hs i j Hij Hj. apply He. apply Hs; lia.
Qed.
Theorem C36_any_matrix n get (x : nat -> nat -> V) : (forall r c, r < n -> c < n -> get r c = Ok (x r c)) -> (forall u v, eqb u v = true <-> u = v) ->
  exists ok, sym_get eqb n n get = Ok ok /\ (ok = true <-> symmetric n x).
Proof.
  intros Hg He. destruct (sym_get_spec n get x Hg) as (ok & E & Hok).
  exists ok. split; [done|]. rewrite Hok. split.
  - intros Ha i j Hi Hj. destruct (Nat.lt_trichotomy i j) as [Hlt|[->|Hlt]]; [apply He; by apply Ha|done|]. symmetry. apply He. by apply Ha.
  - intros Hs i j Hij Hj. apply He. apply Hs; lia.
Qed.
Theorem C36_not_square n m get b h : n <> m -> sym_get eqb n m get = Throw /\ (h_rows h <> h_cols h -> sym_csr eqb b h = Throw).
Proof. intros Hn. unfold sym_get, sym_csr. split; [by rewrite decide_True|intros Hh; by rewrite decide_True]. Qed.

(** ** Sparse matrices *)
Lemma reads_at (b : csrbuf V) h base rs r (l : row V) i c v : csr_reads b h base rs -> rs !! r = Some l -> l !! i = Some (c, v) ->
  exists a, roff b h r = Ok a /\ rd (bcols b) (a + i) = Ok c /\ rd (bvals b) (a + i) = Ok v.
Proof.
  intros HR Hr Hi. assert (Hrl : r < length rs) by (by eapply lookup_lt_Some). exists (base + stored (take r rs)). split; [apply (rd_off _ _ _ _ HR); lia|].
  destruct (reads_entry _ _ _ _ _ _ _ _ HR Hr Hi) as [H1 H2]. split; by apply rd_Ok.
Qed.
(** One entry with a column right of the diagonal. *)
Lemma sym_entry_spec (b : csrbuf V) h base rs r (l : row V) i c v (lB : row V) p pos a : csr_reads b h base rs -> h_rows h = h_cols h -> rs !! r = Some l -> l !! i = Some (c, v) -> roff b h r = Ok a -> length pos = h_rows h ->
  r < c -> rs !! c = Some lB -> pos !! c = Some p ->
  let q := default 0 (incpos p) in
  sym_entry eqb b h r a i pos = Ok (<[c := incpos p]> (<[r := Some i]> pos), match lB !! q with Some (cB, vB) => if decide (cB = r) then eqb v vB else false | None => false end).
Proof.
  intros HR Hsq Hr Hi Ha Hlen Hrc HB Hp q. destruct (reads_at _ _ _ _ _ _ _ _ _ HR Hr Hi) as (a' & Ha' & Hc & Hv). rewrite Ha in Ha'. injection Ha' as <-.
  assert (Hcl : c < length rs) by (by eapply lookup_lt_Some). pose proof (rd_rows _ _ _ _ HR) as Hn.
  unfold sym_entry. rewrite Hc. cbn [obind]. rewrite decide_False by lia. rewrite wr_Ok by lia. cbn [obind]. rewrite Hv. cbn [obind].
  rewrite (reads_row_nnz _ _ _ _ _ _ HR HB). cbn [obind]. rewrite (rd_off _ _ _ _ HR) by lia. cbn [obind].
  rewrite (rd_Ok _ c p) by (rewrite list_lookup_insert_ne by lia; done). cbn [obind]. rewrite wr_Ok by (rewrite insert_length; lia). cbn [obind]. fold q.
  destruct (lB !! q) as [[cB vB]|] eqn:Eq.
  - assert (Hq : q < length lB) by (by eapply lookup_lt_Some). rewrite decide_False by lia. destruct (reads_entry _ _ _ _ _ _ _ _ HR HB Eq) as [H1 H2].
    rewrite (rd_Ok _ _ _ H1). cbn [obind fst]. rewrite (rd_Ok _ _ _ H2). cbn [obind snd]. done.
  - apply lookup_ge_None_1 in Eq. rewrite decide_True by lia. done.
Qed.
Lemma sym_entry_low (b : csrbuf V) h base rs r (l : row V) i c v pos a : csr_reads b h base rs -> rs !! r = Some l -> l !! i = Some (c, v) -> roff b h r = Ok a -> c <= r ->
  sym_entry eqb b h r a i pos = Ok (pos, true).
Proof.
  intros HR Hr Hi Ha Hrc. destruct (reads_at _ _ _ _ _ _ _ _ _ HR Hr Hi) as (a' & Ha' & Hc & Hv). rewrite Ha in Ha'. injection Ha' as <-.
  unfold sym_entry. rewrite Hc. cbn [obind]. by rewrite decide_True.
Qed.

Definition mirrored (rs : list (row V)) (r : nat) (e : nat * V) : Prop := r < fst e -> exists l v', rs !! fst e = Some l /\ (r, v') ∈ l /\ eqb (snd e) v' = true.

Lemma row_col_lt m (rs : list (row V)) r l i c v : Forall (row_ok m) rs -> rs !! r = Some l -> l !! i = Some (c, v) -> c < m.
Proof. intros Hok Hr Hi. rewrite Forall_lookup in Hok. destruct (Hok _ _ Hr) as [_ Hin]. rewrite Forall_lookup in Hin. apply (Hin i). by rewrite list_lookup_fmap, Hi. Qed.

(** Whenever the check answers true, every entry above the diagonal has its mirror image. *)
Lemma sym_csr_sound b h base rs : csr_reads b h base rs -> h_rows h = h_cols h ->
  exists ok, sym_csr eqb b h = Ok ok /\ (ok = true -> forall r l i e, rs !! r = Some l -> l !! i = Some e -> mirrored rs r e).
Proof.
  intros HR Hsq. pose proof (rd_rows _ _ _ _ HR) as Hn. pose proof (rd_ok _ _ _ _ HR) as Hok. unfold sym_csr. rewrite decide_False by tauto. case_decide as H1.
  - exists true. split; [done|]. intros _ r l i [c v] Hr Hi Hlt. pose proof (row_col_lt _ _ _ _ _ _ _ Hok Hr Hi). cbn in Hlt. lia.
  - match goal with |- context [for_up 0 (h_rows h) ?f ?s0] =>
      destruct (for_up_inv (fun r (s : list (option nat) * bool) => length (fst s) = h_rows h /\ (snd s = true -> forall r' l i e, r' < r -> rs !! r' = Some l -> l !! i = Some e -> mirrored rs r' e)) 0 (h_rows h) f s0) as ([pos ok] & E & Hl & Hs) end.
    + lia.
    + split; [cbn [fst]; by rewrite replicate_length|]. intros _ r' l i e Hr'. lia.
    + intros r [pos ok] Hr [Hlen IH]. cbn [fst snd] in *. unfold sym_row. cbn [snd]. destruct ok; [|exists (pos, false); done].
      destruct (lookup_lt_is_Some_2 rs r) as [l Hl]; [lia|]. rewrite (reads_row_nnz _ _ _ _ _ _ HR Hl). cbn [obind]. rewrite (rd_off _ _ _ _ HR) by lia. cbn [obind].
      set (a := base + stored (take r rs)). assert (Ha : roff b h r = Ok a) by (apply (rd_off _ _ _ _ HR); lia).
      match goal with |- context [for_up 0 (length l) ?f ?s0] =>
        destruct (for_up_inv (fun k (s : list (option nat) * bool) => length (fst s) = h_rows h /\ (snd s = true -> forall i e, i < k -> l !! i = Some e -> mirrored rs r e)) 0 (length l) f s0) as ([pos' ok'] & E & Hlen' & Hs) end.
      * lia.
      * split; [done|]. intros _ i e Hi. lia.
      * intros k [pos1 ok1] Hk [Hlen1 IH1]. cbn [fst snd] in *. destruct ok1; [|exists (pos1, false); done].
        destruct (lookup_lt_is_Some_2 l k) as [[c v] Hkl]; [lia|]. destruct (decide (c <= r)) as [Hc|Hc].
        -- rewrite (sym_entry_low b h base rs r l k c v) by done. exists (pos1, true). split; [done|]. split; [done|]. intros _ i e Hi Hie.
           destruct (decide (i = k)) as [->|]; [|apply (IH1 eq_refl i); [lia|done]]. rewrite Hkl in Hie. injection Hie as <-. intros Hlt. cbn in Hlt. lia.
        -- pose proof (row_col_lt _ _ _ _ _ _ _ Hok Hl Hkl) as Hcm. destruct (lookup_lt_is_Some_2 rs c) as [lB HB]; [lia|]. destruct (lookup_lt_is_Some_2 pos1 c) as [p Hp]; [lia|].
           rewrite (sym_entry_spec b h base rs r l k c v lB p) by (done || lia). eexists. split; [done|]. cbn [fst snd]. split; [by rewrite !insert_length|].
           intros Ht i e Hi Hie. destruct (decide (i = k)) as [->|]; [|apply (IH1 eq_refl i); [lia|done]]. rewrite Hkl in Hie. injection Hie as <-. intros _. cbn [fst snd].
           destruct (lB !! default 0 (incpos p)) as [[cB vB]|] eqn:EB; [|done]. case_decide as Hd; [|done]. subst cB. exists lB, vB. split; [done|]. split; [|done]. by eapply elem_of_list_lookup_2.
      * rewrite E. cbn [obind fst snd] in *. destruct ok'.
        -- destruct (lookup_lt_is_Some_2 pos' r) as [p Hp]; [lia|]. rewrite (rd_Ok _ _ _ Hp). cbn [obind]. eexists. split; [done|]. cbn [fst snd]. split; [done|]. intros _ r' l' i e Hr' Hl' Hi.
           destruct (decide (r' = r)) as [->|]; [|apply (IH eq_refl r' l' i e); [lia|done|done]]. rewrite Hl in Hl'. injection Hl' as <-. apply (Hs eq_refl i); [by eapply lookup_lt_Some|done].
        -- eexists. split; [done|]. done.
    + rewrite E. cbn [obind snd fst] in *. exists ok. split; [done|]. intros -> r l i e Hr Hi. apply (Hs eq_refl r l i e); [|done|done]. rewrite <- Hn. by eapply lookup_lt_Some.
Qed.

(** If the sparse check answers true, then cells above the diagonal that are not zero equal their mirror images. *)
Theorem C36_sparse_true b h n (x : nat -> nat -> V) : sparse_cells b h n n x -> (forall u v, eqb u v = true <-> u = v) ->
  exists ok, sym_csr eqb b h = Ok ok /\ (ok = true -> forall i j, i < j -> j < n -> x i j <> vzero -> x j i = x i j).
Proof.
  intros Hs He. destruct (sparse_cells_cell _ _ _ _ _ Hs) as (rs & Hsh & Hn & Hm & Hx). destruct (shows_reads _ _ _ Hsh) as (base & HR & _).
  destruct (sym_csr_sound b h base rs HR) as (ok & E & Hok); [lia|]. exists ok. split; [done|]. intros Ht i j Hij Hj Hnz. specialize (Hok Ht).
  pose proof (rd_ok _ _ _ _ HR) as Hrok. rewrite Forall_lookup in Hrok.
  rewrite <- Hx in Hnz by lia. rewrite <- !Hx by lia. unfold cell in *. destruct (rs !! i) as [l|] eqn:Hi; [|done]. rewrite cell_in_find in Hnz. destruct (find_col j l) as [v|] eqn:Hf; [|done]. cbn in Hnz.
  rewrite (cell_in_find j l), Hf. cbn [default]. apply find_col_Some in Hf. apply elem_of_list_lookup in Hf as [k Hk]. destruct (Hok i l k (j, v) Hi Hk) as (lB & v' & HB & Hin & Hv); [done|]. cbn [fst snd] in *.
  rewrite HB, cell_in_find. destruct (Hrok _ _ HB) as [Hsd _]. rewrite (find_col_elem i v' lB Hsd Hin). cbn. symmetry. by apply He.
Qed.

(** ** Completeness *)
Definition npred (k : nat) : option nat := match k with 0 => None | S k => Some k end.
Lemma incpos_npred k : default 0 (incpos (npred k)) = k /\ incpos (npred k) = npred (S k).
Proof. destruct k as [|k]; [done|]. cbn. split; [lia|f_equal; lia]. Qed.
(** entries left of column [c] *)
Definition left_of (c : nat) (l : row V) : nat := length (filter (fun k => k < c) l.*1).
Lemma left_of_index (l : list nat) c k : StronglySorted lt l -> l !! k = Some c -> length (filter (fun k => k < c) l) = k.
Proof.
  revert k. induction l as [|x l IH]; intros k Hs Hk; [done|]. apply StronglySorted_inv in Hs as [Hs Hx]. rewrite Forall_forall in Hx. destruct k as [|k].
  - injection Hk as ->. rewrite filter_cons_False by lia. cut (filter (fun k => k < c) l = []); [by intros ->|].
    clear IH Hs. induction l as [|y l IH]; [done|]. rewrite filter_cons_False; [apply IH|].
    + intros z Hz. apply Hx. by right.
    + specialize (Hx y (elem_of_list_here _ _)). lia.
  - cbn in Hk. rewrite filter_cons_True; [cbn [length]; by rewrite (IH k)|]. apply Hx. by eapply elem_of_list_lookup_2.
Qed.
Lemma left_of_S (l : list nat) c : NoDup l -> length (filter (fun k => k < S c) l) = length (filter (fun k => k < c) l) + (if decide (c ∈ l) then 1 else 0).
Proof.
  induction l as [|x l IH]; intros Hnd; [rewrite decide_False by apply not_elem_of_nil; done|]. apply NoDup_cons in Hnd as [Hx Hnd]. specialize (IH Hnd). rewrite !filter_cons.
  destruct (decide (x = c)) as [->|Hne].
  - rewrite decide_True by lia. rewrite (decide_False (P := c < c)) by lia. rewrite (decide_True (P := c ∈ c :: l)) by left. rewrite decide_False in IH by done. cbn [length]. lia.
  - destruct (decide (c ∈ l)) as [Hin|Hin].
    + rewrite (decide_True (P := c ∈ x :: l)) by (by right). destruct (decide (x < S c)) as [Hs|Hs]; [rewrite decide_True by lia|rewrite decide_False by lia]; cbn [length]; lia.
    + rewrite (decide_False (P := c ∈ x :: l)) by (rewrite elem_of_cons; intros [?|?]; [congruence|done]). destruct (decide (x < S c)) as [Hs|Hs]; [rewrite decide_True by lia|rewrite decide_False by lia]; cbn [length]; lia.
Qed.
Lemma ss_nodup (l : list nat) : StronglySorted lt l -> NoDup l.
Proof. induction 1 as [|x l Hs IH Hx]; constructor; [|done]. rewrite Forall_forall in Hx. intros Hin. specialize (Hx _ Hin). lia. Qed.

(** The stored entries are symmetric, and a row with a diagonal entry has another one. *)
Definition sym_rows (rs : list (row V)) : Prop :=
  (forall r l c v, rs !! r = Some l -> (c, v) ∈ l -> exists l' v', rs !! c = Some l' /\ (r, v') ∈ l' /\ eqb v v' = true) /\
  (forall r l, rs !! r = Some l -> r ∈ l.*1 -> exists c, c ∈ l.*1 /\ c <> r).

Lemma sym_csr_complete b h base rs : csr_reads b h base rs -> h_rows h = h_cols h -> sym_rows rs -> sym_csr eqb b h = Ok true.
Proof.
  intros HR Hsq [Hsym Hdiag]. pose proof (rd_rows _ _ _ _ HR) as Hn. pose proof (rd_ok _ _ _ _ HR) as Hok. pose proof Hok as Hok'. rewrite Forall_lookup in Hok'. unfold sym_csr. rewrite decide_False by tauto. case_decide as H1; [done|].
  match goal with |- context [for_up 0 (h_rows h) ?f ?s0] =>
    destruct (for_up_inv (fun r (s : list (option nat) * bool) => length (fst s) = h_rows h /\ snd s = true /\ forall c l, r <= c -> rs !! c = Some l -> fst s !! c = Some (npred (left_of r l))) 0 (h_rows h) f s0) as ([pos ok] & E & Hl & Hs & _) end.
  - lia.
  - split; [cbn [fst]; by rewrite replicate_length|]. split; [done|]. cbn [fst]. intros c l _ Hc. assert (c < length rs) by (by eapply lookup_lt_Some). rewrite lookup_replicate_2 by lia. f_equal.
    unfold left_of. cut (filter (fun k => k < 0) l.*1 = []); [by intros ->|]. clear. induction (l.*1) as [|y l' IH]; [done|]. rewrite filter_cons_False by lia. done.
  - intros r [pos ok] Hr (Hlen & Hok1 & IH). cbn [fst snd] in *. subst ok. unfold sym_row. cbn [snd].
    destruct (lookup_lt_is_Some_2 rs r) as [l Hl]; [lia|]. rewrite (reads_row_nnz _ _ _ _ _ _ HR Hl). cbn [obind]. rewrite (rd_off _ _ _ _ HR) by lia. cbn [obind].
    set (a := base + stored (take r rs)). assert (Ha : roff b h r = Ok a) by (apply (rd_off _ _ _ _ HR); lia). destruct (Hok' _ _ Hl) as [Hsd Hin].
    match goal with |- context [for_up 0 (length l) ?f ?s0] =>
      destruct (for_up_inv (fun k (s : list (option nat) * bool) => length (fst s) = h_rows h /\ snd s = true /\
        (forall c lc, r < c -> rs !! c = Some lc -> fst s !! c = Some (npred (left_of r lc + (if decide (c ∈ take k l.*1) then 1 else 0)))) /\
        ((0 < left_of r l \/ exists c, c ∈ take k l.*1 /\ r < c) -> fst s !! r <> Some None)) 0 (length l) f s0) as ([pos' ok'] & E & Hlen' & Hok2 & Hpos & Hself) end.
    + lia.
    + split; [done|]. split; [done|]. split; cbn [fst].
      * intros c lc Hc Hlc. rewrite take_0, decide_False by apply not_elem_of_nil. rewrite Nat.add_0_r. apply IH; [lia|done].
      * intros [Hlo|(c & Hc & _)]; [|rewrite take_0 in Hc; by apply elem_of_nil in Hc]. rewrite (IH r l) by (done || lia). destruct (left_of r l); [lia|done].
    + intros k [pos1 ok1] Hk (Hlen1 & Hok1 & Hpos1 & Hself1). cbn [fst snd] in *. subst ok1.
      destruct (lookup_lt_is_Some_2 l k) as [[c v] Hkl]; [lia|]. assert (Hk1 : l.*1 !! k = Some c) by (by rewrite list_lookup_fmap, Hkl). pose proof (take_S_r _ _ _ Hk1) as Htk. replace (1 + k) with (S k) by lia.
      assert (Hfresh : c ∉ take k l.*1). { intros Hc. apply elem_of_list_lookup in Hc as [i Hi]. apply lookup_take_Some in Hi as [Hi Hik]. pose proof (NoDup_lookup _ _ _ _ (ss_nodup _ Hsd) Hi Hk1). lia. }
      pose proof (row_col_lt _ _ _ _ _ _ _ Hok Hl Hkl) as Hcm. destruct (Hsym r l c v Hl) as (lB & v' & HB & HinB & Hv); [by eapply elem_of_list_lookup_2|]. destruct (Hok' _ _ HB) as [HsB _].
      destruct (decide (c <= r)) as [Hc|Hc].
      * rewrite (sym_entry_low b h base rs r l k c v) by done. exists (pos1, true). split; [done|]. split; [done|]. split; [done|]. cbn [fst]. rewrite Htk. split.
        -- intros c' lc Hc' Hlc. rewrite (Hpos1 c' lc Hc' Hlc). do 3 f_equal. apply decide_ext. rewrite elem_of_app, elem_of_list_singleton. split; [by left|intros [?| ->]; [done|lia]].
        -- intros [Hlo|(c' & Hc' & Hne)]; [apply Hself1; by left|]. rewrite elem_of_app, elem_of_list_singleton in Hc'. destruct Hc' as [Hc'| ->]; [|lia]. apply Hself1. right. by exists c'.
      * assert (Hp : pos1 !! c = Some (npred (left_of r lB))). { rewrite (Hpos1 c lB) by (done || lia). rewrite decide_False by done. by rewrite Nat.add_0_r. }
        rewrite (sym_entry_spec b h base rs r l k c v lB (npred (left_of r lB))) by (done || lia). destruct (incpos_npred (left_of r lB)) as [Eq Ei].
        apply elem_of_list_lookup in HinB as [kB HkB]. assert (HkB1 : lB.*1 !! kB = Some r) by (by rewrite list_lookup_fmap, HkB).
        rewrite Eq, Ei. unfold left_of at 2. rewrite (left_of_index _ _ _ HsB HkB1), HkB. rewrite decide_True by done. rewrite Hv.
        eexists. split; [done|]. cbn [fst snd]. split; [by rewrite !insert_length|]. split; [done|]. rewrite Htk. split.
        -- intros c' lc Hc' Hlc. destruct (decide (c' = c)) as [->|Hne].
           ++ rewrite HB in Hlc. injection Hlc as <-. rewrite list_lookup_insert by (rewrite insert_length; lia). rewrite decide_True by (rewrite elem_of_app, elem_of_list_singleton; by right). do 2 f_equal. lia.
           ++ rewrite !list_lookup_insert_ne by lia. rewrite (Hpos1 c' lc Hc' Hlc). do 3 f_equal. apply decide_ext. rewrite elem_of_app, elem_of_list_singleton. split; [by left|by intros [?| ->]].
        -- intros _. rewrite list_lookup_insert_ne by lia. rewrite list_lookup_insert by lia. done.
    + rewrite E. cbn [obind fst snd] in *. subst ok'. destruct (lookup_lt_is_Some_2 pos' r) as [p Hp]; [lia|]. rewrite (rd_Ok _ _ _ Hp). cbn [obind]. eexists. split; [done|]. cbn [fst snd]. split; [done|].
      rewrite (take_ge l.*1) in Hpos, Hself by (by rewrite fmap_length). split.
      * destruct (decide (p = None)) as [->|Hp1]; [|by rewrite bool_decide_false]. destruct l as [|[c v] l]; [by rewrite andb_false_r|]. exfalso. apply Hself; [|done].
        assert (Hc : exists c', c' ∈ (((c, v) :: l).*1) /\ c' <> r). { destruct (decide (c = r)) as [->|Hne]; [apply (Hdiag r _ Hl); left|exists c; split; [left|done]]. }
        destruct Hc as (c' & Hc' & Hne). destruct (decide (c' < r)) as [Hlt|Hlt]; [left|right; exists c'; split; [done|lia]].
        unfold left_of. assert (Hf : c' ∈ filter (fun k => k < r) (((c, v) :: l).*1)) by (by apply elem_of_list_filter). destruct (filter _ _); [by apply elem_of_nil in Hf|cbn; lia].
      * intros c lc Hc Hlc. rewrite (Hpos c lc) by (done || lia). do 2 f_equal. unfold left_of. destruct (Hok' _ _ Hlc) as [Hsc _]. replace (1 + r) with (S r) by lia. rewrite (left_of_S _ r (ss_nodup _ Hsc)). f_equal.
        apply decide_ext. split.
        -- intros Hin1. apply elem_of_list_fmap in Hin1 as ([c1 v1] & -> & Hin1). destruct (Hsym r l c1 v1 Hl Hin1) as (l' & v' & Hl' & Hin' & _). cbn in Hlc. rewrite Hlc in Hl'. injection Hl' as <-. apply elem_of_list_fmap. by exists (r, v').
        -- intros Hin1. apply elem_of_list_fmap in Hin1 as ([r1 v1] & -> & Hin1). cbn [fst] in *. destruct (Hsym c lc r1 v1 Hlc Hin1) as (l' & v' & Hl' & Hin' & _). rewrite Hl in Hl'. injection Hl' as <-. apply elem_of_list_fmap. by exists (c, v').
  - rewrite E. cbn [obind snd] in *. by subst ok.
Qed.

(** Symmetric matrices without stored zeros are recognized if every row with a non-zero cell on the diagonal has another non-zero cell. *)
Theorem C36_sparse_complete b h n rs (x : nat -> nat -> V) : shows b h rs -> no_zeros rs -> sparse_cells b h n n x ->
  (forall u v : V, eqb u v = true <-> u = v) -> (forall v : V, viszero v = true <-> v = vzero) ->
  symmetric n x -> (forall i, i < n -> x i i <> vzero -> exists j, j < n /\ j <> i /\ x i j <> vzero) ->
  sym_csr eqb b h = Ok true.
Proof.
  intros Hsh Hnz (_ & Hn & Hm & Hx) He Hz Hs Hd. destruct (shows_reads _ _ _ Hsh) as (base & HR & _). pose proof (rd_rows _ _ _ _ HR) as Hlen. pose proof (rd_ok _ _ _ _ HR) as Hok.
  assert (Hc : forall r c, r < n -> c < n -> cell rs r c = x r c). { intros r c Hr Hc. specialize (Hx r c Hr Hc). rewrite (shows_cell _ _ rs) in Hx by (done || lia). by injection Hx. }
  assert (Hst : forall r l c v, rs !! r = Some l -> (c, v) ∈ l -> r < n /\ c < n /\ x r c = v /\ v <> vzero).
  { intros r l c v Hr Hin. assert (Hr' : r < n) by (apply lookup_lt_Some in Hr; lia). pose proof Hin as Hin'. apply elem_of_list_lookup in Hin' as [k Hk]. pose proof (row_col_lt _ _ _ _ _ _ _ Hok Hr Hk) as Hcm.
    split; [done|]. split; [lia|]. rewrite Forall_lookup in Hok. destruct (Hok _ _ Hr) as [Hsd _]. split.
    - rewrite <- Hc by lia. unfold cell. rewrite Hr, cell_in_find, (find_col_elem c v l Hsd Hin). done.
    - unfold no_zeros in Hnz. rewrite Forall_lookup in Hnz. specialize (Hnz _ _ Hr). rewrite Forall_lookup in Hnz. specialize (Hnz _ _ Hk). cbn in Hnz. intros E. apply Hz in E. congruence. }
  assert (Hst2 : forall r c, r < n -> c < n -> x r c <> vzero -> exists l, rs !! r = Some l /\ (c, x r c) ∈ l).
  { intros r c Hr Hcn Hne. destruct (lookup_lt_is_Some_2 rs r) as [l Hl]; [lia|]. exists l. split; [done|]. rewrite <- Hc in Hne |- * by done. unfold cell in *. rewrite Hl in *. rewrite cell_in_find in *.
    destruct (find_col c l) as [v|] eqn:Hf; [|done]. cbn. by apply find_col_Some. }
  apply (sym_csr_complete b h base rs HR); [lia|]. split.
  - intros r l c v Hr Hin. destruct (Hst _ _ _ _ Hr Hin) as (Hrn & Hcn & <- & Hne). rewrite (Hs r c) in Hne |- * by done. destruct (Hst2 c r Hcn Hrn Hne) as (l' & Hl' & Hin'). exists l', (x c r). split; [done|]. split; [done|]. by apply He.
  - intros r l Hr Hin. apply elem_of_list_fmap in Hin as ([r' v] & E & Hin). cbn in E. subst r'. destruct (Hst _ _ _ _ Hr Hin) as (Hrn & _ & <- & Hne). destruct (Hd r Hrn Hne) as (j & Hj & Hjr & Hjne).
    destruct (Hst2 r j Hrn Hj Hjne) as (l' & Hl' & Hin'). rewrite Hr in Hl'. injection Hl' as <-. exists j. split; [|done]. apply elem_of_list_fmap. by exists (j, x r j).
Qed.
End sym.

Local Instance Val_nat : Val nat := { vzero := 0; viszero := Nat.eqb 0 }.
Definition mk (rs : list (row nat)) : csrbuf nat := mkBuf (concat rs).*2 (concat rs).*1 (offsets 0 rs).
Definition mkh (rs : list (row nat)) : csrh := mkH 0 (length rs) (length rs) (length rs) false (stored rs) 0.
Lemma mk_shows rs : Forall (row_ok (length rs)) rs -> shows (mk rs) (mkh rs) rs.
Proof.
  intros Hok. exists rs. unfold mkh, mk. cbn. split; [|by rewrite drop_0, firstn_all]. split; cbn; [|done|lia|done|by rewrite fmap_length]. split; [done|]. exists [], []. rewrite !app_nil_r. split; [done|]. split; [done|]. done.
Qed.
Lemma mk_cells rs : Forall (row_ok (length rs)) rs -> sparse_cells (mk rs) (mkh rs) (length rs) (length rs) (cell rs).
Proof. intros Hok. split; [exists rs; by apply mk_shows|]. split; [done|]. split; [done|]. intros r c Hr Hc. apply shows_cell; [by apply mk_shows|done|done]. Qed.

(** The identity matrix is declared not symmetric. *)
Definition c36_id : list (row nat) := [[(0, 1)]; [(1, 1)]].
(** Entry (2,1) has no mirror image, but this matrix is declared symmetric. *)
Definition c36_asym : list (row nat) := [[(2, 5)]; []; [(0, 5); (1, 7)]].
Theorem C36_sparse_refuted :
  (exists b h n (x : nat -> nat -> nat), sparse_cells b h n n x /\ symmetric n x /\ sym_csr Nat.eqb b h = Ok false) /\
  (exists b h n (x : nat -> nat -> nat), sparse_cells b h n n x /\ ~ symmetric n x /\ sym_csr Nat.eqb b h = Ok true).
Proof.
  split.
  - exists (mk c36_id), (mkh c36_id), 2, (cell c36_id). split; [|split; [|vm_compute; done]].
    + apply (mk_cells c36_id). repeat (constructor; [split; repeat constructor; simpl; lia|]). constructor.
    + intros [|[|i]] [|[|j]] Hi Hj; (done || lia).
  - exists (mk c36_asym), (mkh c36_asym), 3, (cell c36_asym). split; [|split; [|vm_compute; done]].
    + apply (mk_cells c36_asym). repeat (constructor; [split; repeat constructor; simpl; lia|]). constructor.
    + intros Hs. specialize (Hs 1 2). cbn in Hs. discriminate Hs; lia.
Qed.

(** A symmetric matrix with diagonal entries and an empty row. *)
Definition c36_sym : list (row nat) := [[(0, 4); (2, 5)]; []; [(0, 5); (3, 6)]; [(2, 6); (3, 1)]].
Example C36_ex : sym_csr Nat.eqb (mk c36_sym) (mkh c36_sym) = Ok true /\
  shows (mk c36_sym) (mkh c36_sym) c36_sym /\ no_zeros c36_sym /\ symmetric 4 (cell c36_sym) /\
  (forall i, i < 4 -> cell c36_sym i i <> vzero -> exists j, j < 4 /\ j <> i /\ cell c36_sym i j <> vzero).
Proof.
  split; [vm_compute; done|]. split; [|split; [|split]].
  - apply (mk_shows c36_sym). repeat (constructor; [split; repeat constructor; simpl; lia|]). constructor.
  - repeat constructor.
  - intros [|[|[|[|i]]]] [|[|[|[|j]]]] Hi Hj; (done || lia).
  - intros [|[|[|[|i]]]] Hi Hne; [exists 2|done|done|exists 2|lia]; (split; [lia|]; split; [lia|]; done).
Qed.
Definition c36_a : dmat nat := mkDM [1; 2; 9; 2; 3; 9] 0 2 2 3.
Example C36_ex_dense : is_dense c36_a 2 2 (fun r c => r + c + 1) /\ sym_dense Nat.eqb c36_a = Ok true /\ sym_dense Nat.eqb (mkDM [1; 2; 3; 4] 0 2 2 2) = Ok false.
Proof.
  split; [|vm_compute; done]. split; [done|]. split; [done|]. split; [cbn; lia|]. split; [right; cbn; lia|]. intros r c Hr Hc.
  destruct r as [|[|r]]; [| |lia]; (destruct c as [|[|c]]; [done|done|lia]).
Qed.

Print Assumptions C36_dense.
Print Assumptions C36_any_matrix.
Print Assumptions C36_not_square.
Print Assumptions C36_sparse_true.
Print Assumptions C36_sparse_complete.
Print Assumptions C36_sparse_refuted.
