(** C33: recoding a column. *)
From stdpp Require Import base numbers sorting list list_numbers.
From Coq Require Import Lia.
From Verif Require Import CppBase Mem RecodeModel.
Local Open Scope nat_scope.

(** * Specification *)
Section Spec.
  Context {V : Type} (eqb lt : V -> V -> bool).
  (** [codes] and [dict] encode the values [l]: every code leads to an equal value in the dictionary, the dictionary has no two equal
      values, and every value of the dictionary occurs. *)
  Definition encodes (l : list V) (codes : list nat) (dict : list V) : Prop :=
    length codes = length l /\
    (forall i v, l !! i = Some v -> exists c w, codes !! i = Some c /\ dict !! c = Some w /\ eqb w v = true) /\
    (forall i j v w, dict !! i = Some v -> dict !! j = Some w -> eqb v w = true -> i = j) /\
    (forall w, w ∈ dict -> exists v, v ∈ l /\ eqb w v = true).
  (** Codes compare like the values. *)
  Definition same_order (l : list V) (codes : list nat) : Prop :=
    forall i j v w c d, l !! i = Some v -> l !! j = Some w -> codes !! i = Some c -> codes !! j = Some d -> (c < d <-> lt v w = true).
  (** A new code is always the smallest unused one. *)
  Definition first_come (codes : list nat) : Prop := forall i c, codes !! i = Some c -> forall d, d < c -> exists j, j < i /\ codes !! j = Some d.
  (** == is an equivalence. *)
  Definition equivalence : Prop := (forall v, eqb v v = true) /\ (forall v w, eqb v w = true -> eqb w v = true) /\ (forall u v w, eqb u v = true -> eqb v w = true -> eqb u w = true).
  (** < is transitive and irreflexive, and two values are equal exactly if neither is smaller; equal values compare alike. *)
  Definition ordering : Prop := (forall u v w, lt u v = true -> lt v w = true -> lt u w = true) /\ (forall v w, eqb v w = true <-> lt v w = false /\ lt w v = false).
End Spec.
Definition is_column {V} (a : dmat V) (l : list V) : Prop :=
  m_rows a = length l /\ m_cols a = 1 /\ forall r v, l !! r = Some v -> m_buf a !! (m_off a + r * m_skip a) = Some v.

(** * Proofs *)
Section Proofs.
  Context {V : Type} (eqb lt : V -> V -> bool) (He : equivalence eqb).
  Lemma find_spec (m : umap) v c : um_find eqb v m = Some c -> exists w, (w, c) ∈ m /\ eqb w v = true.
  Proof.
    induction m as [|[w c'] m IH]; cbn [um_find]; [done|]. destruct (eqb w v) eqn:E.
    - intros [= ->]. exists w. split; [by left|done].
    - intros H. destruct (IH H) as (w' & Hw & E'). exists w'. split; [by right|done].
  Qed.
  Lemma find_none (m : umap) v : um_find eqb v m = None <-> forall w c, (w, c) ∈ m -> eqb w v = false.
  Proof.
    induction m as [|[w c] m IH]; cbn [um_find]; [split; [intros _ w c H; by apply elem_of_nil in H|done]|]. destruct (eqb w v) eqn:E.
    - split; [done|]. intros H. rewrite (H w c) in E by (by left). done.
    - rewrite IH. split.
      + intros H w' c' Hw. apply elem_of_cons in Hw as [[= -> ->]|Hw]; [done|by apply (H w' c')].
      + intros H w' c' Hw. apply (H w' c'). by right.
  Qed.

  (** the map holds the dictionary [d]: value i has code i *)
  Definition holds_dict (m : umap) (d : list V) : Prop := m = imap (fun i v => (v, i)) d.
  Definition distinct (d : list V) : Prop := forall i j v w, d !! i = Some v -> d !! j = Some w -> eqb v w = true -> i = j.
  Lemma hd_in m d w c : holds_dict m d -> (w, c) ∈ m <-> d !! c = Some w.
  Proof.
    intros ->. rewrite elem_of_list_lookup. split.
    - intros (i & Hi). rewrite list_lookup_imap in Hi. destruct (d !! i) eqn:E; cbn in Hi; [|done]. by injection Hi as -> ->.
    - intros H. exists c. by rewrite list_lookup_imap, H.
  Qed.
  Lemma hd_find m d v : holds_dict m d -> match um_find eqb v m with Some c => exists w, d !! c = Some w /\ eqb w v = true | None => forall w, w ∈ d -> eqb w v = false end.
  Proof.
    intros H. destruct (um_find eqb v m) as [c|] eqn:E.
    - apply find_spec in E as (w & Hw & Ew). exists w. split; [by apply (hd_in m d)|done].
    - intros w Hw. apply elem_of_list_lookup in Hw as (c & Hc). rewrite find_none in E. apply (E w c). by apply (hd_in m d).
  Qed.
  Lemma hd_snoc m d v : holds_dict m d -> holds_dict (m ++ [(v, length d)]) (d ++ [v]).
  Proof. intros ->. unfold holds_dict. rewrite imap_app. cbn. by rewrite Nat.add_0_r. Qed.
  Lemma hd_length m d : holds_dict m d -> length m = length d.
  Proof. intros ->. apply imap_length. Qed.
  Lemma lookup_snoc {A} (d : list A) v i x : (d ++ [v]) !! i = Some x -> (i < length d /\ d !! i = Some x) \/ (i = length d /\ x = v).
  Proof.
    intros H. destruct (decide (i < length d)); [left; by rewrite lookup_app_l in H|]. rewrite lookup_app_r in H by lia. right.
    destruct (i - length d) eqn:E; [|by rewrite lookup_nil in H || done]. cbn in H. injection H as ->. split; [lia|done].
  Qed.
  Lemma distinct_snoc d v : distinct d -> (forall w, w ∈ d -> eqb w v = false) -> distinct (d ++ [v]).
  Proof.
    destruct He as (_ & Hsym & _). intros Hd Hv i j x y Hi Hj Hxy. apply lookup_snoc in Hi as [[Hi1 Hi]|[-> ->]]; apply lookup_snoc in Hj as [[Hj1 Hj]|[-> ->]].
    - by apply (Hd i j x y).
    - apply elem_of_list_lookup_2 in Hi. by rewrite Hv in Hxy.
    - apply elem_of_list_lookup_2 in Hj. apply Hsym in Hxy. by rewrite Hv in Hxy.
    - done.
  Qed.
  Lemma read_col (a : dmat V) l r v : is_column a l -> l !! r = Some v -> rd (m_buf a) (m_off a + r * m_skip a) = Ok v.
  Proof. intros (_ & _ & H) Hr. by apply rd_Ok, H. Qed.

  (** ** plain *)
  Definition coded (l : list V) (k : nat) (res : list nat) (d : list V) : Prop :=
    forall i v, i < k -> l !! i = Some v -> exists c w, res !! i = Some c /\ d !! c = Some w /\ eqb w v = true.
  Definition pinv (l : list V) (k : nat) (s : umap * nat * list nat) : Prop :=
    let '(m, next, res) := s in
    exists d, holds_dict m d /\ next = length d /\ length res = length l /\ distinct d /\ coded l k res d /\
      (forall w, w ∈ d -> exists v, v ∈ l /\ eqb w v = true) /\
      (forall i c, i < k -> res !! i = Some c -> forall e, e < c -> exists j, j < i /\ res !! j = Some e) /\ (forall e, e < length d -> exists j, j < k /\ res !! j = Some e).
  Lemma recode_plain_ok order jd jr a l : is_column a l -> (forall m : umap, order m ≡ₚ m) -> (forall k, length (jd k) = k) -> (forall k, length (jr k) = k) ->
    exists codes dict, recode_plain eqb order jd jr a = Ok (codes, dict) /\ encodes eqb l codes dict /\ first_come codes.
  Proof.
    intros Ha Hord Hjd Hjr. pose proof Ha as (Ra & Ca & _). unfold recode_plain. rewrite Ca, Ra. rewrite decide_False by lia. cbv zeta.
    match goal with |- context [for_up 0 (length l) ?f ?s0] => destruct (for_up_inv (pinv l) 0 (length l) f s0) as ([[m next] res] & E & Hinv) end.
    - lia.
    - exists []. split; [done|]. split; [done|]. split; [apply Hjr|]. split; [done|]. split; [intros i v Hi; lia|]. split; [intros w Hw; by apply elem_of_nil in Hw|]. split; [intros; lia|]. cbn; intros; lia.
    - intros k [[m next] res] Hk (d & Hm & -> & Hlen & Hd & Hc & Hocc & Hfc & Hall). destruct (lookup_lt_is_Some_2 l k ltac:(lia)) as [v Hv]. rewrite (read_col a l k v Ha Hv). cbn [obind].
      pose proof (hd_find m d v Hm) as Hf. destruct (um_find eqb v m) as [c|].
      + destruct Hf as (w & Hw & Ew). rewrite wr_Ok by lia. cbn [obind]. eexists. split; [done|]. exists d. split; [done|]. split; [done|]. split; [by rewrite insert_length|]. split; [done|]. split; [|split; [done|split]].
        * intros i u Hi Hu. destruct (decide (i = k)) as [->|]; [rewrite list_lookup_insert by lia; rewrite Hv in Hu; injection Hu as <-; eauto|]. rewrite list_lookup_insert_ne by done. apply Hc; [lia|done].
        * intros i c' Hi Hc' e He'. destruct (decide (i = k)) as [->|].
          -- rewrite list_lookup_insert in Hc' by lia. injection Hc' as <-. destruct (Hall e) as (j & Hj & Hje); [apply lookup_lt_Some in Hw; lia|]. exists j. split; [lia|]. by rewrite list_lookup_insert_ne by lia.
          -- rewrite list_lookup_insert_ne in Hc' by done. destruct (Hfc i c' ltac:(lia) Hc' e He') as (j & Hj & Hje). exists j. split; [lia|]. by rewrite list_lookup_insert_ne by lia.
        * intros e He'. destruct (Hall e He') as (j & Hj & Hje). exists j. split; [lia|]. by rewrite list_lookup_insert_ne by lia.
      + rewrite wr_Ok by lia. cbn [obind]. eexists. split; [done|]. exists (d ++ [v]). split; [by apply hd_snoc|]. split; [by rewrite app_length|]. split; [by rewrite insert_length|]. split; [by apply distinct_snoc|].
        destruct He as (Hrefl & _). split; [|split; [|split]].
        * intros i u Hi Hu. destruct (decide (i = k)) as [->|].
          -- rewrite list_lookup_insert by lia. rewrite Hv in Hu. injection Hu as <-. exists (length d), v. split; [done|]. split; [|done]. rewrite lookup_app_r by lia. by rewrite Nat.sub_diag.
          -- rewrite list_lookup_insert_ne by done. destruct (Hc i u ltac:(lia) Hu) as (c & w & Hci & Hw & Ew). exists c, w. split; [done|]. split; [|done]. by apply lookup_app_l_Some.
        * intros w Hw. apply elem_of_app in Hw as [Hw|Hw]; [by apply Hocc|]. apply elem_of_list_singleton in Hw as ->. exists v. split; [by apply elem_of_list_lookup_2 in Hv|done].
        * intros i c' Hi Hc' e He'. destruct (decide (i = k)) as [->|].
          -- rewrite list_lookup_insert in Hc' by lia. injection Hc' as <-. destruct (Hall e He') as (j & Hj & Hje). exists j. split; [lia|]. by rewrite list_lookup_insert_ne by lia.
          -- rewrite list_lookup_insert_ne in Hc' by done. destruct (Hfc i c' ltac:(lia) Hc' e He') as (j & Hj & Hje). exists j. split; [lia|]. by rewrite list_lookup_insert_ne by lia.
        * intros e He'. rewrite app_length in He'. cbn [length] in He'. destruct (decide (e = length d)) as [->|]; [exists k; split; [lia|]; apply list_lookup_insert; lia|].
          destruct (Hall e ltac:(lia)) as (j & Hj & Hje). exists j. split; [lia|]. by rewrite list_lookup_insert_ne by lia.
    - rewrite E. cbn [obind]. destruct Hinv as (d & Hm & -> & Hlen & Hd & Hc & Hocc & Hfc & Hall).
      assert (Hol : length (order m) = length m) by (by rewrite (Hord m)).
      match goal with |- context [for_up 0 (length m) ?f ?s0] =>
        destruct (for_up_inv (fun k (b : list V) => length b = length d /\ forall i, i < k -> forall w c, order m !! i = Some (w, c) -> b !! c = Some w) 0 (length m) f s0) as (b & E' & Hlb & Hb) end.
      + lia.
      + split; [rewrite Hjd; by apply hd_length|]. intros; lia.
      + intros i b Hi [Hlb Hb]. destruct (lookup_lt_is_Some_2 (order m) i ltac:(lia)) as [[w c] Hwc]. rewrite (rd_Ok _ _ _ Hwc). cbn [obind fst snd].
        assert (Hin : forall j w c, order m !! j = Some (w, c) -> d !! c = Some w). { intros j w' c' Hj. apply (hd_in m d); [done|]. rewrite <- (Hord m). by apply elem_of_list_lookup_2 in Hj. }
        pose proof (Hin _ _ _ Hwc) as Hdc. rewrite wr_Ok by (apply lookup_lt_Some in Hdc; lia). eexists. split; [done|]. split; [by rewrite insert_length|].
        intros i' Hi' w' c' Hw'. destruct (decide (c' = c)) as [->|].
        * rewrite list_lookup_insert by (apply lookup_lt_Some in Hdc; lia). pose proof (Hin _ _ _ Hw') as Hdc'. congruence.
        * rewrite list_lookup_insert_ne by done. apply (Hb i'); [|done]. destruct (decide (i' = i)) as [->|]; [congruence|lia].
      + rewrite E'. cbn [obind]. assert (b = d) as ->.
        { apply list_eq_same_length with (length d); [done|lia|]. intros c x y Hcl Hx Hy. assert (Hin : (y, c) ∈ order m) by (rewrite (Hord m); by apply (hd_in m d)).
          apply elem_of_list_lookup in Hin as (i & Hi). rewrite (Hb i) with (w := y) in Hx; [congruence|apply lookup_lt_Some in Hi; lia|done]. }
        exists res, d. split; [done|]. split; [split; [done|]; split; [|by split]|].
        * intros i v Hv. apply (Hc i v); [by apply lookup_lt_Some in Hv|done].
        * intros i c Hi. apply Hfc; [apply lookup_lt_Some in Hi; lia|done].
  Qed.

  (** ** order preserving *)
  Context (Ho : ordering eqb lt).
  Lemma lt_irrefl v : lt v v = false.
  Proof. destruct He as (Hr & _). destruct Ho as (_ & H). specialize (proj1 (H v v) (Hr v)). tauto. Qed.
  Lemma lt_eq_l u v w : eqb u v = true -> lt v w = true -> lt u w = true.
  Proof.
    destruct Ho as (Ht & Hq). destruct He as (_ & Hsym & Htr). intros E L. destruct (lt u w) eqn:Euw; [done|]. destruct (lt w u) eqn:Ewu.
    - pose proof (Ht _ _ _ L Ewu) as H. apply Hq in E. destruct E. congruence.
    - assert (eqb u w = true) as E2 by (by apply Hq). assert (eqb v w = true) as E3 by (apply (Htr v u w); [by apply Hsym|done]). apply Hq in E3. destruct E3. congruence.
  Qed.
  Lemma lt_eq_r u v w : lt u v = true -> eqb v w = true -> lt u w = true.
  Proof.
    destruct Ho as (Ht & Hq). destruct He as (_ & Hsym & Htr). intros L E. destruct (lt u w) eqn:Euw; [done|]. destruct (lt w u) eqn:Ewu.
    - pose proof (Ht _ _ _ Ewu L) as H. apply Hq in E. destruct E. congruence.
    - assert (eqb u w = true) as E2 by (by apply Hq). assert (eqb u v = true) as E3 by (apply (Htr u w v); [done|by apply Hsym]). apply Hq in E3. destruct E3. congruence.
  Qed.
  Lemma set_insert_spec v s : StronglySorted (fun x y => lt x y = true) s ->
    StronglySorted (fun x y => lt x y = true) (set_insert lt v s) /\ (forall w, w ∈ set_insert lt v s -> w = v \/ w ∈ s) /\ (forall w, w ∈ s -> w ∈ set_insert lt v s) /\ exists w, w ∈ set_insert lt v s /\ eqb w v = true.
  Proof.
    destruct Ho as (Ht & Hq). destruct He as (Hr & Hsym & _). induction s as [|w s IH]; intros Hs; cbn [set_insert].
    - split; [repeat constructor|]. split; [intros w Hw; apply elem_of_list_singleton in Hw; by left|]. split; [intros w Hw; by apply elem_of_nil in Hw|]. exists v. split; [by left|apply Hr].
    - apply StronglySorted_inv in Hs as [Hs Hw]. destruct (lt v w) eqn:E1; [|destruct (lt w v) eqn:E2].
      + split; [|split; [|split]].
        * constructor; [by constructor|]. constructor; [done|]. eapply Forall_impl; [exact Hw|]. intros x Hx. cbn beta in Hx. by apply (Ht v w x).
        * intros x Hx. apply elem_of_cons in Hx as [->|Hx]; [by left|by right].
        * intros x Hx. by right.
        * exists v. split; [by left|apply Hr].
      + destruct (IH Hs) as (Hs' & Hin & Hkeep & x & Hx & Ex). split; [|split; [|split]].
        * constructor; [done|]. apply Forall_forall. intros y Hy. destruct (Hin y Hy) as [->|Hy']; [done|]. rewrite Forall_forall in Hw. by apply Hw.
        * intros y Hy. apply elem_of_cons in Hy as [->|Hy]; [right; by left|]. destruct (Hin y Hy) as [->|?]; [by left|right; by right].
        * intros y Hy. apply elem_of_cons in Hy as [->|Hy]; [by left|right; by apply Hkeep].
        * exists x. split; [by right|done].
      + split; [by constructor|]. split; [by right|]. split; [done|]. exists w. split; [by left|]. by apply Hq.
  Qed.
  Lemma sorted_distinct d : StronglySorted (fun x y => lt x y = true) d -> distinct d.
  Proof.
    assert (Hlt : forall d, StronglySorted (fun x y => lt x y = true) d -> forall i j v w, i < j -> d !! i = Some v -> d !! j = Some w -> lt v w = true).
    { clear. induction 1 as [|x d Hd IH Hx]; intros i j v w Hij Hi Hj; [done|]. destruct j as [|j]; [lia|]. cbn in Hj. destruct i as [|i].
      - injection Hi as <-. rewrite Forall_forall in Hx. apply Hx. by apply elem_of_list_lookup_2 in Hj.
      - cbn in Hi. apply (IH i j); [lia|done|done]. }
    destruct Ho as (_ & Hq). intros Hs i j v w Hi Hj E. apply Hq in E as [E1 E2]. destruct (decide (i < j)); [by rewrite (Hlt d Hs i j v w) in E1|]. destruct (decide (j < i)); [by rewrite (Hlt d Hs j i w v) in E2|lia].
  Qed.
  Lemma sorted_lookup d : StronglySorted (fun x y => lt x y = true) d -> forall i j v w, i < j -> d !! i = Some v -> d !! j = Some w -> lt v w = true.
  Proof.
    clear. induction 1 as [|x d Hd IH Hx]; intros i j v w Hij Hi Hj; [done|]. destruct j as [|j]; [lia|]. cbn in Hj. destruct i as [|i].
    - injection Hi as <-. rewrite Forall_forall in Hx. apply Hx. by apply elem_of_list_lookup_2 in Hj.
    - cbn in Hi. apply (IH i j); [lia|done|done].
  Qed.

  Lemma recode_ordered_ok jd jr a l : is_column a l -> (forall k, length (jd k) = k) -> (forall k, length (jr k) = k) ->
    exists codes dict, recode_ordered eqb lt jd jr a = Ok (codes, dict) /\ encodes eqb l codes dict /\ StronglySorted (fun x y => lt x y = true) dict /\ same_order lt l codes.
  Proof.
    intros Ha Hjd Hjr. pose proof Ha as (Ra & Ca & _). unfold recode_ordered. rewrite Ca, Ra. rewrite decide_False by lia. cbv zeta.
    match goal with |- context [for_up 0 (length l) ?f []] =>
      destruct (for_up_inv (fun k s => StronglySorted (fun x y => lt x y = true) s /\ (forall w, w ∈ s -> w ∈ l) /\ forall i v, i < k -> l !! i = Some v -> exists w, w ∈ s /\ eqb w v = true) 0 (length l) f []) as (d & E & Hs & Hsub & Hall) end.
    - lia.
    - split; [constructor|]. split; [intros w Hw; by apply elem_of_nil in Hw|intros; lia].
    - intros k s Hk (Hs & Hsub & Hall). destruct (lookup_lt_is_Some_2 l k ltac:(lia)) as [v Hv]. rewrite (read_col a l k v Ha Hv). cbn [obind]. eexists. split; [done|].
      destruct (set_insert_spec v s Hs) as (Hs' & Hin & Hkeep & x & Hx & Ex). split; [done|]. split.
      + intros w Hw. destruct (Hin w Hw) as [->|?]; [by apply elem_of_list_lookup_2 in Hv|by apply Hsub].
      + intros i u Hi Hu. destruct (decide (i = k)) as [->|]; [rewrite Hv in Hu; injection Hu as <-; eauto|]. destruct (Hall i u ltac:(lia) Hu) as (w & Hw & Ew). exists w. split; [by apply Hkeep|done].
    - rewrite E. cbn [obind]. clear E. pose proof (sorted_distinct d Hs) as Hd.
      match goal with |- context [for_up 0 (length d) ?f ?s0] =>
        destruct (for_up_inv (fun k (s : umap * list V) => holds_dict (fst s) (take k d) /\ length (snd s) = length d /\ forall i, i < k -> snd s !! i = d !! i) 0 (length d) f s0) as ([m dict] & E & Hm & Hlen & Hdict) end.
      + lia.
      + split; [done|]. split; [apply Hjd|]. intros; lia.
      + intros k [m b] Hk (Hm & Hlen & Hb). cbn [fst snd] in *. destruct (lookup_lt_is_Some_2 d k ltac:(lia)) as [v Hv]. rewrite (rd_Ok _ _ _ Hv). cbn [obind]. rewrite wr_Ok by lia. cbn [obind]. eexists. split; [done|]. cbn [fst snd].
        split; [|split; [by rewrite insert_length|]].
        * unfold um_emplace. pose proof (hd_find m (take k d) v Hm) as Hf. destruct (um_find eqb v m) as [c|].
          -- exfalso. destruct Hf as (w & Hw & Ew). assert (Hck : c < k). { apply lookup_lt_Some in Hw. rewrite take_length in Hw. lia. } rewrite lookup_take in Hw by done. pose proof (Hd c k w v Hw Hv Ew). lia.
          -- cbn [plus]. rewrite (take_S_r _ _ _ Hv). pose proof (hd_snoc m (take k d) v Hm) as Hx. rewrite take_length in Hx. replace (k `min` length d) with k in Hx by lia. done.
        * intros i Hi. destruct (decide (i = k)) as [->|]; [rewrite list_lookup_insert by lia; by rewrite Hv|]. rewrite list_lookup_insert_ne by done. apply Hb. lia.
      + rewrite E. cbn [obind fst snd] in *. clear E. rewrite take_ge in Hm by lia. assert (dict = d) as ->.
        { apply list_eq. intros i. destruct (decide (i < length d)); [by apply Hdict|]. rewrite !lookup_ge_None_2 by lia. done. }
        match goal with |- context [for_up 0 (length l) ?f ?s0] =>
          destruct (for_up_inv (fun k (s : umap * list nat) => fst s = m /\ length (snd s) = length l /\ coded l k (snd s) d) 0 (length l) f s0) as ([m' res] & E & Em & Hlr & Hc) end.
        * lia.
        * split; [done|]. split; [apply Hjr|]. intros i v Hi; lia.
        * intros k [m' res] Hk (Em & Hlr & Hc). cbn [fst snd] in *. subst m'. destruct (lookup_lt_is_Some_2 l k ltac:(lia)) as [v Hv]. rewrite (read_col a l k v Ha Hv). cbn [obind]. unfold um_at. pose proof (hd_find m d v Hm) as Hf.
          destruct (um_find eqb v m) as [c|].
          -- rewrite wr_Ok by lia. cbn [obind]. eexists. split; [done|]. cbn [fst snd]. split; [done|]. split; [by rewrite insert_length|]. intros i u Hi Hu. destruct (decide (i = k)) as [->|].
             ++ rewrite list_lookup_insert by lia. rewrite Hv in Hu. injection Hu as <-. destruct Hf as (w & Hw & Ew). eauto.
             ++ rewrite list_lookup_insert_ne by done. apply Hc; [lia|done].
          -- exfalso. destruct (Hall k v ltac:(lia) Hv) as (w & Hw & Ew). rewrite Hf in Ew by done. done.
        * rewrite E. cbn [obind fst snd] in *. exists res, d. split; [done|]. assert (Henc : encodes eqb l res d).
          { split; [done|]. split; [intros i v Hv; apply (Hc i v); [by apply lookup_lt_Some in Hv|done]|]. split; [done|]. intros w Hw. exists w. split; [by apply Hsub|]. destruct He as (Hr & _). apply Hr. }
          split; [done|]. split; [done|]. intros i j v w c e Hi Hj Hci Hej. destruct Henc as (_ & Hcode & _). destruct (Hcode i v Hi) as (c' & v' & Hc' & Hv' & Ev). destruct (Hcode j w Hj) as (e' & w' & He' & Hw' & Ew).
          assert (c' = c) as -> by congruence. assert (e' = e) as -> by congruence. destruct He as (_ & Hsym & _). split.
          -- intros Hlt. apply (lt_eq_l v v' w); [by apply Hsym|]. apply (lt_eq_r v' w' w); [|done]. by apply (sorted_lookup d Hs c e).
          -- intros Hlt. assert (Hlt' : lt v' w' = true). { apply (lt_eq_l v' v w'); [done|]. apply (lt_eq_r v w w'); [done|by apply Hsym]. }
             destruct (decide (c < e)); [done|]. exfalso. destruct (decide (c = e)) as [->|].
             ++ assert (v' = w') as -> by congruence. by rewrite lt_irrefl in Hlt'.
             ++ pose proof (sorted_lookup d Hs e c w' v' ltac:(lia) Hw' Hv') as Hgt. destruct Ho as (Ht & _). pose proof (Ht _ _ _ Hlt' Hgt) as Hx. by rewrite lt_irrefl in Hx.
  Qed.
End Proofs.

(** * C33 *)
Theorem C33_plain {V} (eqb : V -> V -> bool) order jd jr a l : equivalence eqb -> is_column a l -> (forall m : umap, order m ≡ₚ m) -> (forall k, length (jd k) = k) -> (forall k, length (jr k) = k) ->
  exists codes dict, recode_plain eqb order jd jr a = Ok (codes, dict) /\ encodes eqb l codes dict /\ first_come codes.
Proof. intros He. by apply recode_plain_ok. Qed.
Theorem C33_order_preserving {V} (eqb lt : V -> V -> bool) jd jr a l : equivalence eqb -> ordering eqb lt -> is_column a l -> (forall k, length (jd k) = k) -> (forall k, length (jr k) = k) ->
  exists codes dict, recode_ordered eqb lt jd jr a = Ok (codes, dict) /\ encodes eqb l codes dict /\ StronglySorted (fun x y => lt x y = true) dict /\ same_order lt l codes.
Proof. intros He Ho. by apply recode_ordered_ok. Qed.
(** Codes are exactly 0 .. k-1. *)
Theorem C33_dense_codes {V} (eqb : V -> V -> bool) l codes dict : equivalence eqb -> encodes eqb l codes dict -> forall c, c ∈ codes <-> c < length dict.
Proof.
  intros (_ & Hsym & Htr) (Hlen & Hcode & Hd & Hocc) c. split.
  - intros Hc. apply elem_of_list_lookup in Hc as (i & Hi). destruct (lookup_lt_is_Some_2 l i) as [v Hv]; [apply lookup_lt_Some in Hi; lia|]. destruct (Hcode i v Hv) as (c' & w & Hc' & Hw & _).
    assert (c' = c) as -> by congruence. by apply lookup_lt_Some in Hw.
  - intros Hc. destruct (lookup_lt_is_Some_2 dict c Hc) as [w Hw]. destruct (Hocc w) as (v & Hv & E); [by apply elem_of_list_lookup_2 in Hw|]. apply elem_of_list_lookup in Hv as (i & Hi).
    destruct (Hcode i v Hi) as (c' & w' & Hc' & Hw' & E'). assert (c' = c) as ->. { apply (Hd c' c w' w Hw' Hw). apply (Htr w' v w); [done|by apply Hsym]. } by apply elem_of_list_lookup_2 in Hc'.
Qed.
Theorem C33_rejects {V} (eqb lt : V -> V -> bool) order jd jr (a : dmat V) : m_cols a <> 1 -> recode_plain eqb order jd jr a = Throw /\ recode_ordered eqb lt jd jr a = Throw.
Proof. intros H. unfold recode_plain, recode_ordered. rewrite !decide_True by done. done. Qed.

(** With NaN (here [None]) the order-preserving variant loses values: NaN, 1, 2 all get code 0 of a dictionary that only holds NaN. *)
Definition nan_lt (v w : option nat) : bool := match v, w with Some v, Some w => v <? w | _, _ => false end.
Definition nan_eq (v w : option nat) : bool := match v, w with Some v, Some w => v =? w | _, _ => false end.
Theorem C33_nan_refuted : recode_ordered nan_eq nan_lt (fun k => replicate k None) (fun k => replicate k 0) (mkDM [None; Some 1; Some 2] 0 3 1 1) = Ok ([0; 0; 0], [None]).
Proof. done. Qed.

Example C33_ex_plain : recode_plain Nat.eqb (@reverse _) (fun k => replicate k 0) (fun k => replicate k 0) (mkDM [7; 3; 7; 5] 0 4 1 1) = Ok ([0; 1; 0; 2], [7; 3; 5]).
Proof. done. Qed.
Example C33_ex_ordered : recode_ordered Nat.eqb Nat.ltb (fun k => replicate k 0) (fun k => replicate k 0) (mkDM [7; 0; 3; 0; 7; 0; 5; 0] 0 4 1 2) = Ok ([2; 0; 2; 1], [3; 5; 7]).
Proof. done. Qed.
Example C33_ex_hyps : equivalence Nat.eqb /\ ordering Nat.eqb Nat.ltb /\ is_column (mkDM [7; 0; 3; 0; 7; 0; 5; 0] 0 4 1 2) [7; 3; 7; 5].
Proof.
  split; [|split].
  - split; [apply Nat.eqb_refl|]. split; intros; rewrite ?Nat.eqb_eq in *; lia.
  - split; intros; rewrite ?Nat.ltb_lt in *; [lia|]. rewrite Nat.eqb_eq, !Nat.ltb_ge. lia.
  - split; [done|]. split; [done|]. intros r v Hr. by destruct r as [|[|[|[|]]]].
Qed.

Print Assumptions C33_plain. Print Assumptions C33_order_preserving. Print Assumptions C33_dense_codes.
