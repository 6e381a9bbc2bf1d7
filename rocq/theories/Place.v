(** C71: the copies of a dense matrix in host and device memory. *)
From stdpp Require Import base numbers list.
From Coq Require Import Lia.
From Verif Require Import CppBase PlaceModel.
Local Open Scope nat_scope.

(** * Specification *)
Section Spec.
  Context {D : Type}.
  Implicit Types (x : D) (ops : list (op D)).
  (** a matrix has one contents: reads show it, writes change it *)
  Fixpoint ideal x ops : list D := match ops with [] => [] | Read _ :: ops => x :: ideal x ops | Write _ f :: ops => ideal (f x) ops end.
  Fixpoint final x ops : D := match ops with [] => x | Read _ :: ops => final x ops | Write _ f :: ops => final (f x) ops end.
  (** What a user has to know about the history of a matrix: the places that hold a current copy as far as the runtime knows, the devices used so far, and
      whether the host memory has the current contents. *)
  Record track := mkT { t_cur : list place; t_used : list nat; t_fresh : bool }.
  Definition start (p : place) : track := match p with Host => mkT [Host] [] true | Dev d => mkT [Dev d] [d] false end.
  Definition only (p : place) (t : track) : Prop := forall q, q ∈ t_cur t -> q = p.
  (** the accesses that keep the copies coherent *)
  Definition allowed (t : track) (o : op D) : Prop :=
    match o with
    | Read Host => True
    | Write Host _ => only Host t
    | Read (Dev d) => Dev d ∈ t_cur t \/ d ∉ t_used t \/ t_fresh t = true
    | Write (Dev d) _ => if decide (Dev d ∈ t_cur t) then only (Dev d) t else d ∉ t_used t \/ t_fresh t = true
    end.
  Definition after (t : track) (o : op D) : track :=
    match o with
    | Read Host => mkT (t_cur t) (t_used t) true
    | Write Host _ => t
    | Read (Dev d) => if decide (Dev d ∈ t_cur t) then t else mkT (Dev d :: t_cur t) (if decide (d ∈ t_used t) then t_used t else d :: t_used t) true
    | Write (Dev d) _ => mkT [Dev d] (if decide (d ∈ t_used t) then t_used t else d :: t_used t) false
    end.
  Fixpoint tracked (t : track) ops : track := match ops with [] => t | o :: ops => tracked (after t o) ops end.
  Fixpoint safe (t : track) ops : Prop := match ops with [] => True | o :: ops => allowed t o /\ safe (after t o) ops end.
End Spec.

(** * Proofs *)
Section Proofs.
  Context {D : Type} (junk : D).
  Implicit Types (m : mat D) (t : track) (x : D) (q : placement D).
  Definition listed m (p : place) : Prop := exists q, q ∈ m_pls m /\ pl_id q ∈ m_latest m /\ pl_place q = p.
  (** what every history keeps *)
  Record W m : Prop := {
    w_lt : forall q, q ∈ m_pls m -> pl_id q < m_next m;
    w_nodup : NoDup (map pl_id (m_pls m));
    w_latest : forall i, i ∈ m_latest m -> exists q, q ∈ m_pls m /\ pl_id q = i;
    w_ne : m_latest m <> [];
    w_host : listed m Host -> m_host m <> None;
    w_none : m_host m = None -> forall q, q ∈ m_pls m -> pl_id q ∈ m_latest m }.
  Lemma id_inj m q q' : W m -> q ∈ m_pls m -> q' ∈ m_pls m -> pl_id q = pl_id q' -> q = q'.
  Proof.
    intros Hw [i Hi]%elem_of_list_lookup [j Hj]%elem_of_list_lookup E. assert (i = j) as ->; [|congruence]. eapply NoDup_lookup; [apply (w_nodup _ Hw)| |]; apply list_lookup_fmap_Some; eauto.
  Qed.
  Lemma by_id_ok m q : W m -> q ∈ m_pls m -> by_id m (pl_id q) = Some q.
  Proof.
    intros Hw Hq. unfold by_id. destruct (list_find _ _) as [[i q']|] eqn:E; cbn.
    - apply list_find_Some in E as (H1 & H2 & _). f_equal. eapply id_inj; [done|by eapply elem_of_list_lookup_2|done|done].
    - apply list_find_None in E. rewrite Forall_forall in E. by destruct (E q Hq).
  Qed.
  Lemma by_place_Some m p q : by_place m p = Some q -> q ∈ m_pls m /\ pl_place q = p.
  Proof. unfold by_place. destruct (list_find _ _) as [[i q']|] eqn:E; [|done]. apply list_find_Some in E as (H1 & H2 & _). intros [= <-]. split; [by eapply elem_of_list_lookup_2|done]. Qed.
  Lemma by_place_None m p : by_place m p = None -> forall q, q ∈ m_pls m -> pl_place q <> p.
  Proof. unfold by_place. destruct (list_find _ _) as [[i q']|] eqn:E; [done|]. intros _. apply list_find_None in E. by rewrite Forall_forall in E. Qed.
  Lemma scan_ok m ids acc : W m -> (forall i, i ∈ ids -> i ∈ m_latest m) -> (forall q, acc = Some q -> q ∈ m_pls m /\ pl_id q ∈ m_latest m /\ pl_place q <> Host) -> acc <> None \/ ids <> [] ->
    exists q b, scan m ids acc = Ok (Some q, b) /\ q ∈ m_pls m /\ pl_id q ∈ m_latest m /\ (b = true -> pl_place q = Host) /\ (b = false -> pl_place q <> Host /\ forall i q', i ∈ ids -> q' ∈ m_pls m -> pl_id q' = i -> pl_place q' <> Host).
  Proof.
    intros Hw. revert acc. induction ids as [|i ids IH]; intros acc Hin Hacc Hne.
    - destruct acc as [q|]; [|destruct Hne; done]. destruct (Hacc q eq_refl) as (A & B & C). exists q, false. split; [done|]. split; [done|]. split; [done|]. split; [done|]. intros _. split; [done|]. intros i q' H. by apply elem_of_nil in H.
    - cbn [scan]. destruct (w_latest _ Hw i) as (q & Hq & <-); [apply Hin; left|]. rewrite (by_id_ok _ _ Hw Hq). case_decide as Hh.
      + exists q, true. split; [done|]. split; [done|]. split; [apply Hin; left|]. split; done.
      + destruct (IH (Some q)) as (q1 & b & E & A & B & C & H); [intros; apply Hin; by right|intros ? [= <-]; split; [done|]; split; [apply Hin; left|done]|by left|]. exists q1, b. split; [done|]. split; [done|]. split; [done|]. split; [done|]. intros Hb. destruct (H Hb) as [H1 H2]. split; [done|]. intros j q' Hj Hq' <-. apply elem_of_cons in Hj as [Hj|Hj]; [|by eapply H2]. by rewrite (id_inj _ _ _ Hw Hq' Hq Hj).
  Qed.
  Lemma scan_latest m : W m -> exists q b, scan m (m_latest m) None = Ok (Some q, b) /\ q ∈ m_pls m /\ pl_id q ∈ m_latest m /\ (b = true -> pl_place q = Host) /\ (b = false -> pl_place q <> Host /\ ~ listed m Host).
  Proof.
    intros Hw. destruct (scan_ok m (m_latest m) None Hw) as (q & b & E & A & B & C & H); [done|done|right; apply (w_ne _ Hw)|]. exists q, b. split; [done|]. split; [done|]. split; [done|]. split; [done|]. intros Hb. destruct (H Hb) as [H1 H2]. split; [done|]. intros (q' & Hq' & Hl & Hp). by eapply H2.
  Qed.
  (** ** the steps keep [W] *)
  Lemma w_add m p x : W m -> m_host m <> None -> W (add_pl m p x).
  Proof.
    intros Hw Hh. pose proof (w_lt _ Hw) as Hlt. constructor; cbn.
    - intros q [Hq|Hq%elem_of_list_singleton]%elem_of_app; [apply Hlt in Hq; lia|subst; cbn; lia].
    - rewrite map_app. apply NoDup_app. split; [apply (w_nodup _ Hw)|]. split; [|apply NoDup_singleton]. intros i (q & -> & Hq)%elem_of_list_fmap Hi%elem_of_list_singleton. apply Hlt in Hq. cbn in Hi. lia.
    - intros i Hi. destruct (w_latest _ Hw i Hi) as (q & Hq & E). exists q. split; [apply elem_of_app; by left|done].
    - apply (w_ne _ Hw).
    - intros _. done.
    - done.
  Qed.
  Lemma set_mem_pls m i x q : q ∈ m_pls (set_mem m i x) <-> exists q', q' ∈ m_pls m /\ q = if decide (pl_id q' = i) then mkPl i (pl_place q') x else q'.
  Proof. cbn. rewrite elem_of_list_fmap. split; intros (q' & A & B); exists q'; done. Qed.
  Lemma set_mem_ids m i x : map pl_id (m_pls (set_mem m i x)) = map pl_id (m_pls m).
  Proof. cbn. rewrite map_map. apply map_ext. intros q. by case_decide. Qed.
  Lemma upd_id q i x : pl_id (if decide (pl_id q = i) then mkPl i (pl_place q) x else q) = pl_id q.
  Proof. by case_decide. Qed.
  Lemma upd_place q i x : pl_place (if decide (pl_id q = i) then mkPl i (pl_place q) x else q) = pl_place q.
  Proof. by case_decide. Qed.
  Lemma set_mem_listed m i x p : listed (set_mem m i x) p <-> listed m p.
  Proof.
    split.
    - intros (q & (q' & Hq & ->)%set_mem_pls & A & B). exists q'. cbn in A. rewrite upd_id in A. rewrite upd_place in B. done.
    - intros (q & Hq & A & B). eexists. split; [apply set_mem_pls; exists q; split; [done|reflexivity]|]. cbn. by rewrite upd_id, upd_place.
  Qed.
  Lemma w_set_mem m i x : W m -> W (set_mem m i x).
  Proof.
    intros Hw. constructor.
    - intros q (q' & Hq & ->)%set_mem_pls. rewrite upd_id. by apply (w_lt _ Hw).
    - rewrite set_mem_ids. apply (w_nodup _ Hw).
    - intros j Hj. destruct (w_latest _ Hw j Hj) as (q & Hq & <-). eexists. split; [apply set_mem_pls; exists q; split; [done|reflexivity]|apply upd_id].
    - apply (w_ne _ Hw).
    - rewrite set_mem_listed. apply (w_host _ Hw).
    - intros Hh q (q' & Hq & ->)%set_mem_pls. rewrite upd_id. by apply (w_none _ Hw).
  Qed.
  Lemma w_set_host m x : W m -> W (set_host m x).
  Proof. intros Hw. constructor; cbn; try apply Hw; done. Qed.
  Lemma w_with_latest m l : W m -> l <> [] -> (forall i, i ∈ l -> exists q, q ∈ m_pls m /\ pl_id q = i) -> m_host m <> None -> W (with_latest m l).
  Proof. intros Hw Hne Hl Hh. constructor; cbn; try apply Hw; done. Qed.
  Lemma w_to_host m q : W m -> W (to_host junk m q) /\ m_host (to_host junk m q) <> None.
  Proof.
    intros Hw. unfold to_host. destruct (m_host m) as [h|] eqn:Eh.
    - assert (W (add_pl m Host junk)) by (apply w_add; [done|congruence]). case_decide; split; [done|cbn; congruence|by apply w_set_host|done].
    - assert (W (add_pl (set_host m junk) Host junk)) by (apply w_add; [by apply w_set_host|done]). case_decide; split; [done|done|by apply w_set_host|done].
  Qed.
  Lemma w_fetch m q b : W m -> W (fetch junk m (Some q, b)) /\ m_host (fetch junk m (Some q, b)) <> None.
  Proof. intros Hw. unfold fetch. destruct b; [|by apply w_to_host]. destruct (m_host m) eqn:E; [split; [done|congruence]|by apply w_to_host]. Qed.
  (** the result of an access: for reading, and for writing *)
  Lemma w_get m p : W m -> exists m' b i, get junk m p = Ok (m', b, i) /\ W m' /\ (exists q, q ∈ m_pls m' /\ pl_id q = i) /\ (b = false -> m_host m' <> None) /\ (p = Host -> m_host m' <> None).
  Proof.
    intros Hw. destruct p as [|d]; cbn [get].
    - unfold get_host. destruct (scan_latest m Hw) as (q & b & -> & Hq & Hl & _). cbn [obind fst]. destruct (w_fetch m q b Hw) as [A B]. eexists _, _, _. split; [done|]. split; [done|]. split; [|done].
      destruct (w_latest _ A (pl_id q)) as (q' & ? & ?); [|by exists q']. unfold fetch, to_host. destruct b; [destruct (m_host m); [done|]|]; repeat case_match; done.
    - unfold get_dev. destruct (by_place m (Dev d)) as [q|] eqn:Eq.
      + apply by_place_Some in Eq as [Hq Hp]. case_decide as Hl.
        * eexists _, _, _. split; [done|]. split; [done|]. split; [by exists q|]. done.
        * destruct (m_host m) as [h|] eqn:Eh; [|destruct Hl; by apply (w_none _ Hw)]. eexists _, _, _. split; [done|]. split; [by apply w_set_mem|]. split; [|split; [cbn; congruence|done]]. eexists. split; [apply set_mem_pls; exists q; split; [done|reflexivity]|apply upd_id].
      + destruct (scan_latest m Hw) as (q & b & -> & Hq & Hl & _). cbn [obind]. destruct (w_fetch m q b Hw) as [A B]. set (m1 := fetch junk m (Some q, b)) in *. destruct (m_host (add_pl m1 (Dev d) junk)) as [h|] eqn:Eh; [|cbn in Eh; done].
        eexists _, _, _. split; [done|]. split; [apply w_set_mem, w_add; done|]. split; [|split; [cbn in Eh |- *; congruence|done]]. eexists. split; [apply set_mem_pls; eexists (mkPl (m_next m1) (Dev d) junk); split; [cbn; apply elem_of_app; right; left|reflexivity]|apply upd_id].
  Qed.
  Lemma w_contents m p i : W m -> (p = Host -> m_host m <> None) -> (exists q, q ∈ m_pls m /\ pl_id q = i) -> exists x, contents m p i = Ok x.
  Proof.
    intros Hw Hh (q & Hq & <-). destruct p; cbn [contents]; [destruct (m_host m); [eauto|by destruct Hh]|]. rewrite (by_id_ok _ _ Hw Hq). eauto.
  Qed.
  Lemma w_latest_add m i : W m -> (exists q, q ∈ m_pls m /\ pl_id q = i) -> m_host m <> None -> W (with_latest m (m_latest m ++ [i])) /\ W (with_latest m [i]).
  Proof.
    intros Hw Hi Hh. split; apply w_with_latest; try done.
    - by destruct (m_latest m).
    - intros j [Hj|Hj%elem_of_list_singleton]%elem_of_app; [by apply (w_latest _ Hw)|by subst].
    - intros j Hj%elem_of_list_singleton. by subst.
  Qed.
  Lemma w_read m p : W m -> exists m' x, read junk m p = Ok (m', x) /\ W m'.
  Proof.
    intros Hw. unfold read. destruct (w_get m p Hw) as (m1 & b & i & -> & H1 & H2 & H3 & H4). cbn [obind]. destruct b.
    - destruct (w_contents m1 p i H1 H4 H2) as [x ->]. cbn. eauto.
    - destruct (w_latest_add m1 i H1 H2 (H3 eq_refl)) as [A _]. destruct (w_contents (with_latest m1 (m_latest m1 ++ [i])) p i A) as [x ->]; [done|done|]. cbn. eauto.
  Qed.
  Lemma w_write m p f : W m -> exists m', write junk m p f = Ok m' /\ W m'.
  Proof.
    intros Hw. unfold write. destruct (w_get m p Hw) as (m1 & b & i & -> & H1 & H2 & H3 & H4). cbn [obind]. destruct b.
    - destruct (w_contents m1 p i H1 H4 H2) as [x ->]. cbn [obind]. eexists. split; [done|]. destruct p; cbn [store]; [by apply w_set_host|by apply w_set_mem].
    - destruct (w_latest_add m1 i H1 H2 (H3 eq_refl)) as [_ A]. destruct (w_contents (with_latest m1 [i]) p i A) as [x ->]; [done|done|]. cbn [obind]. eexists. split; [done|]. destruct p; cbn [store]; [by apply w_set_host|by apply w_set_mem].
  Qed.
  Lemma w_create p x : W (create junk p x).
  Proof.
    destruct p; constructor; cbn; try done; try (intros q Hq%elem_of_list_singleton; subst; cbn; lia); try apply NoDup_singleton; try (intros i Hi%elem_of_list_singleton; subst; eexists; split; [left|done]).
    - intros (q & Hq%elem_of_list_singleton & _ & Hp). cbn in Hq. by subst q.
    - intros _ q Hq%elem_of_list_singleton. subst. cbn. left.
  Qed.
  (** ** coherence *)
  Record R m t x : Prop := {
    r_w : W m;
    r_cur : forall p, p ∈ t_cur t <-> listed m p;
    r_used : forall d, d ∈ t_used t <-> exists q, q ∈ m_pls m /\ pl_place q = Dev d;
    r_uniq : forall q q' d, q ∈ m_pls m -> q' ∈ m_pls m -> pl_place q = Dev d -> pl_place q' = Dev d -> q = q';
    r_mem : forall q, q ∈ m_pls m -> pl_id q ∈ m_latest m -> pl_place q <> Host -> pl_mem q = x;
    r_fresh : t_fresh t = true -> m_host m = Some x;
    r_host : Host ∈ t_cur t -> t_fresh t = true }.
  Lemma next_unlisted m : W m -> m_next m ∉ m_latest m.
  Proof. intros Hw Hi. destruct (w_latest _ Hw _ Hi) as (q & Hq & E). pose proof (w_lt _ Hw _ Hq). lia. Qed.
  Lemma listed_add m p x p' : W m -> listed (add_pl m p x) p' <-> listed m p'.
  Proof.
    intros Hw. split; intros (q & Hq & A & B).
    - cbn in Hq, A. apply elem_of_app in Hq as [Hq|Hq%elem_of_list_singleton]; [by exists q|]. subst q. cbn in A. by destruct (next_unlisted _ Hw).
    - exists q. split; [cbn; apply elem_of_app; by left|done].
  Qed.
  Lemma r_fetch m t x q b : R m t x -> scan m (m_latest m) None = Ok (Some q, b) -> R (fetch junk m (Some q, b)) (mkT (t_cur t) (t_used t) true) x /\ m_latest (fetch junk m (Some q, b)) = m_latest m.
  Proof.
    intros HR E. pose proof (r_w _ _ _ HR) as Hw. destruct (scan_latest m Hw) as (q' & b' & E' & Hq & Hl & H1 & H2). rewrite E in E'. injection E' as <- <-. unfold fetch. destruct b.
    - assert (Host ∈ t_cur t) as Hc. { apply (r_cur _ _ _ HR). exists q. auto. } pose proof (r_host _ _ _ HR Hc) as Hf. rewrite (r_fresh _ _ _ HR Hf). split; [|done]. destruct HR. constructor; cbn; auto.
    - destruct (H2 eq_refl) as [Hp Hn]. destruct (w_to_host m q Hw) as [A B]. unfold to_host in A |- *. rewrite decide_False in A |- * by done.
      assert (forall m0, m0 = m \/ m0 = set_host m junk -> W m0 -> m_host m0 <> None -> R (set_host (add_pl m0 Host junk) (pl_mem q)) (mkT (t_cur t) (t_used t) true) x /\ m_latest (set_host (add_pl m0 Host junk) (pl_mem q)) = m_latest m) as G.
      { intros m0 Hm0 Hw0 Hh0. assert (m_pls m0 = m_pls m /\ m_latest m0 = m_latest m) as [Epl El] by (destruct Hm0; by subst). split; [|done]. constructor.
        - apply w_set_host, w_add; done.
        - intros p. cbn [t_cur]. rewrite (r_cur _ _ _ HR). change (listed (set_host (add_pl m0 Host junk) (pl_mem q)) p) with (listed (add_pl m0 Host junk) p). rewrite (listed_add m0) by done. unfold listed. by rewrite Epl, El.
        - intros d. cbn. rewrite (r_used _ _ _ HR). rewrite Epl. split; intros (k & Hk & Ek); exists k; [split; [apply elem_of_app; by left|done]|]. apply elem_of_app in Hk as [Hk|Hk%elem_of_list_singleton]; [done|by subst].
        - intros k k' d. cbn. rewrite Epl. intros [Hk|Hk%elem_of_list_singleton]%elem_of_app [Hk'|Hk'%elem_of_list_singleton]%elem_of_app Ek Ek'; subst; try done. by eapply (r_uniq _ _ _ HR).
        - intros k. cbn. rewrite Epl, El. intros [Hk|Hk%elem_of_list_singleton]%elem_of_app Hkl Hkh; [by apply (r_mem _ _ _ HR)|by subst].
        - intros _. cbn. f_equal. by apply (r_mem _ _ _ HR).
        - done. }
      destruct (m_host m) eqn:Eh; apply G; [by left|done|congruence|by right|by apply w_set_host|done].
  Qed.
  Lemma r_add m t x d : R m t x -> t_fresh t = true -> d ∉ t_used t -> R (add_pl m (Dev d) junk) (mkT (t_cur t) (d :: t_used t) true) x.
  Proof.
    intros HR Hf Hd. pose proof (r_w _ _ _ HR) as Hw. pose proof (r_fresh _ _ _ HR Hf) as Hh. constructor.
    - apply w_add; [done|congruence].
    - intros p. rewrite (listed_add m) by done. apply (r_cur _ _ _ HR).
    - intros e. cbn. rewrite elem_of_cons, (r_used _ _ _ HR). split.
      + intros [->|(k & Hk & Ek)]; [eexists; split; [apply elem_of_app; right; left|done]|exists k; split; [apply elem_of_app; by left|done]].
      + intros (k & [Hk|Hk%elem_of_list_singleton]%elem_of_app & Ek); [right; by exists k|]. subst k. cbn in Ek. left. congruence.
    - assert (forall k, k ∈ m_pls m -> pl_place k <> Dev d) as Hn by (intros k Hk Ek; apply Hd, (r_used _ _ _ HR); by exists k).
      intros k k' e. cbn. intros [Hk|Hk%elem_of_list_singleton]%elem_of_app [Hk'|Hk'%elem_of_list_singleton]%elem_of_app Ek Ek'; subst; cbn in *; simplify_eq; try done; [by eapply (r_uniq _ _ _ HR)|by destruct (Hn k)|by destruct (Hn k')].
    - intros k. cbn. intros [Hk|Hk%elem_of_list_singleton]%elem_of_app Hkl Hkh; [by apply (r_mem _ _ _ HR)|]. subst. cbn in Hkl. by destruct (next_unlisted _ Hw).
    - intros _. done.
    - done.
  Qed.
  (** an existing device copy gets the contents and joins the current ones, or becomes the only current one with new contents *)
  Lemma r_join m t x q d : R m t x -> q ∈ m_pls m -> pl_place q = Dev d -> t_fresh t = true -> R (with_latest (set_mem m (pl_id q) x) (m_latest m ++ [pl_id q])) (mkT (Dev d :: t_cur t) (t_used t) true) x.
  Proof.
    intros HR Hq Hp Hf. pose proof (r_w _ _ _ HR) as Hw. pose proof (r_fresh _ _ _ HR Hf) as Hh. constructor.
    - apply (w_latest_add (set_mem m (pl_id q) x)); [by apply w_set_mem| |cbn; congruence]. eexists. split; [apply set_mem_pls; exists q; split; [done|reflexivity]|apply upd_id].
    - intros p. cbn [t_cur]. rewrite elem_of_cons, (r_cur _ _ _ HR). unfold listed. cbn [m_latest with_latest m_pls]. split.
      + intros [->|(k & Hk & Hkl & Ek)].
        * eexists. split; [apply set_mem_pls; exists q; split; [done|reflexivity]|]. rewrite upd_id, upd_place. split; [apply elem_of_app; right; left|done].
        * eexists. split; [apply set_mem_pls; exists k; split; [done|reflexivity]|]. rewrite upd_id, upd_place. split; [apply elem_of_app; by left|done].
      + intros (k' & (k & Hk & ->)%set_mem_pls & A & B). rewrite upd_id in A. rewrite upd_place in B. apply elem_of_app in A as [A|A%elem_of_list_singleton]; [right; by exists k|]. left. rewrite (id_inj _ _ _ Hw Hk Hq A) in B. congruence.
    - intros e. cbn [t_used]. rewrite (r_used _ _ _ HR). split.
      + intros (k & Hk & Ek). eexists. split; [apply set_mem_pls; exists k; split; [done|reflexivity]|by rewrite upd_place].
      + intros (k' & (k & Hk & ->)%set_mem_pls & B). rewrite upd_place in B. by exists k.
    - intros k1 k2 e (a & Ha & ->)%set_mem_pls (b & Hb & ->)%set_mem_pls. rewrite !upd_place. intros A B. by rewrite (r_uniq _ _ _ HR a b e).
    - intros k1 (a & Ha & ->)%set_mem_pls. rewrite upd_id, upd_place. cbn. intros Hl Hn. case_decide as Hc; [done|]. apply elem_of_app in Hl as [Hl|Hl%elem_of_list_singleton]; [by apply (r_mem _ _ _ HR)|done].
    - intros _. cbn. done.
    - done.
  Qed.
  Lemma set_mem_twice m i x y : set_mem (set_mem m i x) i y = set_mem m i y.
  Proof. unfold set_mem. cbn. f_equal. rewrite map_map. apply map_ext. intros q. repeat case_decide; cbn in *; congruence. Qed.
  Lemma r_own m t x y q d : R m t x -> q ∈ m_pls m -> pl_place q = Dev d -> m_host m <> None \/ m_latest m = [pl_id q] \/ (forall q', q' ∈ m_pls m -> q' = q) -> R (with_latest (set_mem m (pl_id q) y) [pl_id q]) (mkT [Dev d] (t_used t) false) y.
  Proof.
    intros HR Hq Hp Hh. pose proof (r_w _ _ _ HR) as Hw. constructor.
    - pose proof (w_set_mem m (pl_id q) y Hw) as Hw'. constructor; cbn [with_latest m_pls m_next m_latest m_host].
      + apply (w_lt _ Hw').
      + apply (w_nodup _ Hw').
      + intros i ->%elem_of_list_singleton. eexists. split; [apply set_mem_pls; exists q; split; [done|reflexivity]|apply upd_id].
      + done.
      + intros (k' & (k & Hk & ->)%set_mem_pls & A & B). rewrite upd_id in A. rewrite upd_place in B. cbn in A. apply elem_of_list_singleton in A. rewrite (id_inj _ _ _ Hw Hk Hq A) in B. congruence.
      + cbn. intros Hn. intros k' (k & Hk & ->)%set_mem_pls. rewrite upd_id. destruct Hh as [?|[Hl|Hh]]; [done|rewrite <- Hl; by apply (w_none _ Hw)|]. rewrite (Hh k Hk). left.
    - intros p. cbn [t_cur]. rewrite elem_of_list_singleton. unfold listed. cbn [m_latest with_latest m_pls]. split.
      + intros ->. eexists. split; [apply set_mem_pls; exists q; split; [done|reflexivity]|]. rewrite upd_id, upd_place. split; [left|done].
      + intros (k' & (k & Hk & ->)%set_mem_pls & A & B). rewrite upd_id in A. rewrite upd_place in B. apply elem_of_list_singleton in A. rewrite (id_inj _ _ _ Hw Hk Hq A) in B. congruence.
    - intros e. cbn [t_used]. rewrite (r_used _ _ _ HR). split.
      + intros (k & Hk & Ek). eexists. split; [apply set_mem_pls; exists k; split; [done|reflexivity]|by rewrite upd_place].
      + intros (k' & (k & Hk & ->)%set_mem_pls & B). rewrite upd_place in B. by exists k.
    - intros k1 k2 e (a & Ha & ->)%set_mem_pls (b & Hb & ->)%set_mem_pls. rewrite !upd_place. intros A B. by rewrite (r_uniq _ _ _ HR a b e).
    - intros k1 (a & Ha & ->)%set_mem_pls. rewrite upd_id, upd_place. cbn. intros Hl%elem_of_list_singleton Hn. by rewrite decide_True.
    - done.
    - cbn. by intros ?%elem_of_list_singleton.
  Qed.
  Lemma some_latest m : W m -> exists k, k ∈ m_pls m /\ pl_id k ∈ m_latest m.
  Proof.
    intros Hw. pose proof (w_ne _ Hw) as Hne. assert (exists i, i ∈ m_latest m) as [i Hi] by (destruct (m_latest m) as [|i l]; [done|]; exists i; left). destruct (w_latest _ Hw i Hi) as (k & Hk & <-). by exists k.
  Qed.
  Lemma r_same m t x y q d : R m t x -> q ∈ m_pls m -> pl_place q = Dev d -> only (Dev d) t -> R (set_mem m (pl_id q) y) (mkT [Dev d] (t_used t) false) y.
  Proof.
    intros HR Hq Hp Ho. pose proof (r_w _ _ _ HR) as Hw.
    assert (forall k, k ∈ m_pls m -> pl_id k ∈ m_latest m -> k = q) as Hk.
    { intros k Hk Hl. assert (pl_place k = Dev d) as E by (apply Ho, (r_cur _ _ _ HR); by exists k). by eapply (r_uniq _ _ _ HR). }
    assert (pl_id q ∈ m_latest m) as Hql. { destruct (some_latest m Hw) as (k & Hk1 & Hk2). by rewrite <- (Hk k Hk1). }
    constructor.
    - by apply w_set_mem.
    - intros p. cbn [t_cur]. rewrite set_mem_listed, elem_of_list_singleton. split; [intros ->; by exists q|]. intros Hl. by apply Ho, (r_cur _ _ _ HR).
    - intros e. cbn [t_used]. rewrite (r_used _ _ _ HR). split.
      + intros (k & Hk1 & Ek). eexists. split; [apply set_mem_pls; exists k; split; [done|reflexivity]|by rewrite upd_place].
      + intros (k' & (k & Hk1 & ->)%set_mem_pls & B). rewrite upd_place in B. by exists k.
    - intros k1 k2 e (a & Ha & ->)%set_mem_pls (b & Hb & ->)%set_mem_pls. rewrite !upd_place. intros A B. by rewrite (r_uniq _ _ _ HR a b e).
    - intros k1 (a & Ha & ->)%set_mem_pls. rewrite upd_id, upd_place. cbn. intros Hl Hn. rewrite decide_True; [done|]. by rewrite (Hk a Ha Hl).
    - done.
    - cbn. by intros ?%elem_of_list_singleton.
  Qed.
  Lemma r_hostw m t x y : R m t x -> only Host t -> R (set_host m y) t y.
  Proof.
    intros HR Ho. pose proof (r_w _ _ _ HR) as Hw. constructor; try apply HR.
    - by apply w_set_host.
    - intros q Hq Hl Hn. destruct Hn. apply Ho, (r_cur _ _ _ HR). by exists q.
    - intros _. done.
  Qed.
  Lemma set_mem_read m i x q d : W m -> q ∈ m_pls m -> pl_id q = i -> contents (set_mem m i x) (Dev d) i = Ok x.
  Proof.
    intros Hw Hq <-. cbn [contents]. pose proof (w_set_mem m (pl_id q) x Hw) as Hw'. assert (mkPl (pl_id q) (pl_place q) x ∈ m_pls (set_mem m (pl_id q) x)) as H by (apply set_mem_pls; exists q; split; [done|]; by rewrite decide_True). by rewrite (by_id_ok _ _ Hw' H : by_id _ (pl_id q) = _).
  Qed.
  (** an access to a device that has to get the contents *)
  Lemma get_dev_new m t x d : R m t x -> Dev d ∉ t_cur t -> d ∉ t_used t \/ t_fresh t = true ->
    exists m0 q t0, get junk m (Dev d) = Ok (set_mem m0 (pl_id q) x, false, pl_id q) /\ R m0 t0 x /\ q ∈ m_pls m0 /\ pl_place q = Dev d /\ t_fresh t0 = true /\ t_cur t0 = t_cur t /\ t_used t0 = (if decide (d ∈ t_used t) then t_used t else d :: t_used t).
  Proof.
    intros HR Hc Ha. pose proof (r_w _ _ _ HR) as Hw. cbn [get]. unfold get_dev. destruct (by_place m (Dev d)) as [q|] eqn:Eq.
    - apply by_place_Some in Eq as [Hq Hp]. assert (d ∈ t_used t) as Hu by (apply (r_used _ _ _ HR); by exists q). destruct Ha as [?|Hf]; [done|]. rewrite decide_False by (intros Hl; apply Hc, (r_cur _ _ _ HR); by exists q). rewrite (r_fresh _ _ _ HR Hf).
      exists m, q, t. rewrite decide_True by done. done.
    - assert (d ∉ t_used t) as Hu. { intros Hu. apply (r_used _ _ _ HR) in Hu as (q & Hq & Hp). by apply (by_place_None _ _ Eq q). }
      destruct (scan_latest m Hw) as (q & b & E & _). rewrite E. cbn [obind]. destruct (r_fetch m t x q b HR E) as [HR1 Hl1]. set (m1 := fetch junk m (Some q, b)) in *. pose proof (r_add _ _ _ d HR1 eq_refl Hu) as HR2. pose proof (r_fresh _ _ _ HR2 eq_refl) as Hh. rewrite Hh.
      exists (add_pl m1 (Dev d) junk), (mkPl (m_next m1) (Dev d) junk), (mkT (t_cur t) (d :: t_used t) true). split; [done|]. split; [done|]. split; [cbn; apply elem_of_app; right; left|]. rewrite decide_False by done. done.
  Qed.
  Lemma get_dev_cur m t x d : R m t x -> Dev d ∈ t_cur t -> exists q, get junk m (Dev d) = Ok (m, true, pl_id q) /\ q ∈ m_pls m /\ pl_place q = Dev d /\ pl_id q ∈ m_latest m /\ pl_mem q = x.
  Proof.
    intros HR Hc. apply (r_cur _ _ _ HR) in Hc as (q & Hq & Hl & Hp). cbn [get]. unfold get_dev. destruct (by_place m (Dev d)) as [q'|] eqn:Eq; [|by destruct (by_place_None _ _ Eq q)]. apply by_place_Some in Eq as [Hq' Hp']. assert (q' = q) as -> by (by eapply (r_uniq _ _ _ HR)). rewrite decide_True by done. exists q. split; [done|]. split; [done|]. split; [done|]. split; [done|]. apply (r_mem _ _ _ HR); [done|done|congruence].
  Qed.
  Lemma get_host_ok m t x : R m t x -> exists m' i, get junk m Host = Ok (m', true, i) /\ R m' (mkT (t_cur t) (t_used t) true) x /\ (Host ∈ t_cur t -> m' = m).
  Proof.
    intros HR. pose proof (r_w _ _ _ HR) as Hw. cbn [get]. unfold get_host. destruct (scan_latest m Hw) as (q & b & E & Hq & Hl & _ & Hb). rewrite E. cbn [obind fst]. destruct (r_fetch m t x q b HR E) as [HR1 Hl1]. eexists _, _. split; [done|]. split; [done|].
    intros Hc. unfold fetch. destruct b; [by rewrite (r_fresh _ _ _ HR (r_host _ _ _ HR Hc))|]. destruct (Hb eq_refl) as [_ Hn]. by destruct Hn; apply (r_cur _ _ _ HR).
  Qed.
  Lemma read_ok m t x p : R m t x -> allowed t (Read p : op D) -> exists m', read junk m p = Ok (m', x) /\ R m' (after t (Read p : op D)) x.
  Proof.
    intros HR Ha. unfold read. destruct p as [|d]; cbn in Ha; cbn [after].
    - destruct (get_host_ok m t x HR) as (m' & i & -> & HR' & _). cbn [obind contents]. rewrite (r_fresh _ _ _ HR' eq_refl). cbn [obind]. by eexists.
    - destruct (decide (Dev d ∈ t_cur t)) as [Hc|Hc].
      + destruct (get_dev_cur m t x d HR Hc) as (q & -> & Hq & _ & _ & Hm). cbn [obind contents]. rewrite (by_id_ok _ _ (r_w _ _ _ HR) Hq). cbn [obind]. rewrite Hm. by eexists.
      + destruct (get_dev_new m t x d HR Hc) as (m0 & q & t0 & -> & HR0 & Hq & Hp & Hf & Hcur & Hu); [by destruct Ha|]. cbn [obind]. pose proof (set_mem_read m0 (pl_id q) x q d (r_w _ _ _ HR0) Hq eq_refl) as Hr.
        change (contents (with_latest (set_mem m0 (pl_id q) x) (m_latest (set_mem m0 (pl_id q) x) ++ [pl_id q])) (Dev d) (pl_id q)) with (contents (set_mem m0 (pl_id q) x) (Dev d) (pl_id q)). rewrite Hr. cbn [obind]. eexists. split; [done|]. rewrite <- Hcur, <- Hu. exact (r_join m0 t0 x q d HR0 Hq Hp Hf).
  Qed.
  Lemma write_ok m t x p f : R m t x -> allowed t (Write p f) -> exists m', write junk m p f = Ok m' /\ R m' (after t (Write p f)) (f x).
  Proof.
    intros HR Ha. unfold write. pose proof (r_w _ _ _ HR) as Hw. destruct p as [|d]; cbn in Ha; cbn [after].
    - assert (Host ∈ t_cur t) as Hc. { destruct (some_latest m Hw) as (k & Hk1 & Hk2). assert (pl_place k ∈ t_cur t) as Hk3 by (apply (r_cur _ _ _ HR); by exists k). by rewrite <- (Ha _ Hk3). }
      destruct (get_host_ok m t x HR) as (m' & i & -> & HR' & Hm). rewrite (Hm Hc). cbn [obind contents]. rewrite (r_fresh _ _ _ HR (r_host _ _ _ HR Hc)). cbn [obind store]. eexists. split; [done|]. by eapply r_hostw.
    - case_decide as Hc.
      + destruct (get_dev_cur m t x d HR Hc) as (q & -> & Hq & Hp & _ & Hm). cbn [obind contents]. rewrite (by_id_ok _ _ (r_w _ _ _ HR) Hq). cbn [obind store]. rewrite Hm. eexists. split; [done|]. rewrite decide_True by (apply (r_used _ _ _ HR); by exists q). by eapply r_same.
      + destruct (get_dev_new m t x d HR Hc Ha) as (m0 & q & t0 & -> & HR0 & Hq & Hp & Hf & Hcur & Hu). cbn [obind]. pose proof (set_mem_read m0 (pl_id q) x q d (r_w _ _ _ HR0) Hq eq_refl) as Hr.
        change (contents (with_latest (set_mem m0 (pl_id q) x) [pl_id q]) (Dev d) (pl_id q)) with (contents (set_mem m0 (pl_id q) x) (Dev d) (pl_id q)). rewrite Hr. cbn [obind store]. eexists. split; [done|].
        change (set_mem (with_latest (set_mem m0 (pl_id q) x) [pl_id q]) (pl_id q) (f x)) with (with_latest (set_mem (set_mem m0 (pl_id q) x) (pl_id q) (f x)) [pl_id q]). rewrite set_mem_twice, <- Hu. eapply r_own; [exact HR0|done|done|]. left. rewrite (r_fresh _ _ _ HR0 Hf). done.
  Qed.
  Lemma run_ok ops : forall m t x, R m t x -> safe t ops -> exists m', run junk m ops = Ok (m', ideal x ops) /\ R m' (tracked t ops) (final x ops).
  Proof.
    induction ops as [|[p|p f] ops IH]; intros m t x HR Hs; cbn [run ideal final tracked]; [by exists m| |]; destruct Hs as [Ha Hs].
    - destruct (read_ok m t x p HR Ha) as (m1 & -> & HR1). cbn [obind fst snd]. destruct (IH _ _ _ HR1 Hs) as (m2 & -> & HR2). cbn. by exists m2.
    - destruct (write_ok m t x p f HR Ha) as (m1 & -> & HR1). cbn [obind]. exact (IH _ _ _ HR1 Hs).
  Qed.
  Lemma r_create p x : R (create junk p x) (start p) x.
  Proof.
    constructor.
    - apply w_create.
    - intros r. unfold listed. destruct p; cbn; split.
      + intros ->%elem_of_list_singleton. eexists. split; [left|]. split; [left|done].
      + intros (q & ->%elem_of_list_singleton & _ & <-). left.
      + intros ->%elem_of_list_singleton. eexists. split; [left|]. split; [left|done].
      + intros (q & ->%elem_of_list_singleton & _ & <-). left.
    - intros d. destruct p; cbn; split.
      + by intros ?%elem_of_nil.
      + by intros (q & ->%elem_of_list_singleton & E).
      + intros ->%elem_of_list_singleton. eexists. split; [left|done].
      + intros (q & ->%elem_of_list_singleton & E). cbn in E. injection E as ->. left.
    - intros q q' d Hq Hq' _ _. destruct p; cbn in Hq, Hq'; apply elem_of_list_singleton in Hq, Hq'; congruence.
    - intros q Hq _ Hn. destruct p; cbn in Hq; apply elem_of_list_singleton in Hq; subst; done.
    - by destruct p.
    - destruct p; cbn; [done|]. by intros ?%elem_of_list_singleton.
  Qed.
  Lemma run_app a : forall m b, run junk m (a ++ b) = let* r := run junk m a in let* s := run junk (fst r) b in Ok (fst s, snd r ++ snd s).
  Proof.
    induction a as [|[p|p f] a IH]; intros m b; cbn [run app obind fst snd].
    - destruct (run junk m b) as [[]| |]; done.
    - destruct (read junk m p) as [[m1 y]| |]; cbn [obind fst snd]; [|done|done]. rewrite IH. destruct (run junk m1 a) as [[m2 ys]| |]; cbn [obind fst snd]; [|done|done]. destruct (run junk m2 b) as [[]| |]; done.
    - destruct (write junk m p f); cbn [obind]; [|done|done]. apply IH.
  Qed.

  (** * Theorems *)
  (** No history of accesses fails. *)
  Theorem C71_never_fails p x ops : exists r, run junk (create junk p x) ops = Ok r.
  Proof.
    assert (forall m, W m -> exists r, run junk m ops = Ok r) as H; [|apply H, w_create]. induction ops as [|[q|q f] ops IH]; intros m Hw; cbn [run]; [eauto| |].
    - destruct (w_read m q Hw) as (m1 & y & -> & Hw1). cbn. destruct (IH _ Hw1) as [r ->]. cbn. eauto.
    - destruct (w_write m q f Hw) as (m1 & -> & Hw1). cbn. by apply IH.
  Qed.
  (** In histories of allowed accesses all reads, in all memories, show the last write. *)
  Theorem C71_coherent p x ops : safe (start p) ops -> exists m, run junk (create junk p x) ops = Ok (m, ideal x ops).
  Proof. intros Hs. destruct (run_ok ops _ _ _ (r_create p x) Hs) as (m & E & _). by exists m. Qed.
  (** This covers the usual life of a matrix: it is filled in one memory, then read in any. *)
  Theorem C71_write_once p x (fill reads : list (op D)) : (forall o, o ∈ fill -> o = Read p \/ exists f, o = Write p f) -> (forall o, o ∈ reads -> exists r, o = Read r) ->
    exists m, run junk (create junk p x) (fill ++ reads) = Ok (m, ideal x (fill ++ reads)).
  Proof.
    intros Hf Hr. apply C71_coherent.
    assert (forall t, (forall d, d ∈ t_used t -> Dev d ∈ t_cur t) \/ t_fresh t = true -> safe t reads) as Hreads.
    { clear Hf. induction reads as [|o reads IH]; intros t Ht; [done|]. destruct (Hr o) as [q ->]; [left|]. split.
      - destruct q as [|d]; [done|]. cbn. destruct (decide (d ∈ t_used t)) as [Hd|Hd]; [|by right; left]. destruct Ht as [Ht|Ht]; [left; by apply Ht|by right; right].
      - apply IH; [intros; apply Hr; by right|]. destruct q as [|d]; cbn [after]; [by right|]. case_decide as Hc; [done|]. by right. }
    assert (forall t, (p = Host /\ only Host t /\ t_fresh t = true \/ exists d, p = Dev d /\ t_cur t = [Dev d] /\ (forall e, e ∈ t_used t -> e = d)) -> safe t (fill ++ reads)) as H.
    { induction fill as [|o fill IH]; intros t Ht; cbn [app].
      - apply Hreads. destruct Ht as [(_ & _ & Hfr)|(d & _ & Hcur & Hu)]; [by right|left]. intros e He. rewrite Hcur, (Hu e He). left.
      - assert (forall t, (p = Host /\ only Host t /\ t_fresh t = true \/ exists d, p = Dev d /\ t_cur t = [Dev d] /\ (forall e, e ∈ t_used t -> e = d)) -> safe t (fill ++ reads)) as IH' by (apply IH; intros; apply Hf; by right). clear IH.
        destruct (Hf o) as [->|[f ->]]; [left| |]; destruct Ht as [(-> & Ho & Hfr)|(d & -> & Hcur & Hu)]; cbn [safe allowed after].
        + split; [done|]. apply IH'. left. done.
        + split; [left; rewrite Hcur; left|]. rewrite decide_True by (rewrite Hcur; left). apply IH'. right. by exists d.
        + split; [done|]. apply IH'. by left.
        + split; [rewrite decide_True by (rewrite Hcur; left); intros q Hq; rewrite Hcur in Hq; by apply elem_of_list_singleton in Hq|]. apply IH'. right. exists d. split; [done|]. split; [done|]. cbn. intros e He. case_decide as Hd; [by apply Hu|]. apply elem_of_cons in He as [->|He]; [done|by apply Hu]. }
    apply H. destruct p as [|d]; [left|right; exists d]; cbn.
    - split; [done|]. split; [|done]. by intros q ->%elem_of_list_singleton.
    - split; [done|]. split; [done|]. by intros e ->%elem_of_list_singleton.
  Qed.
  (** A write where another current copy exists is never seen there: the other copy still counts as current. *)
  Theorem C71_write_shared_refuted p x ops w r f : safe (start p) ops -> w ∈ t_cur (tracked (start p) ops) -> r ∈ t_cur (tracked (start p) ops) -> w <> r ->
    exists m, run junk (create junk p x) (ops ++ [Write w f; Read r]) = Ok (m, ideal x ops ++ [final x ops]).
  Proof.
    intros Hs Hw Hr Hne. destruct (run_ok ops _ _ _ (r_create p x) Hs) as (m & E & HR). rewrite run_app, E. cbn [obind fst snd run]. set (t := tracked (start p) ops) in *. set (y := final x ops) in *. clearbody t y. clear E Hs.
    enough (exists m1 m2, write junk m w f = Ok m1 /\ read junk m1 r = Ok (m2, y)) as (m1 & m2 & -> & H2). { cbn [obind]. rewrite H2. cbn. eauto. }
    pose proof (r_w _ _ _ HR) as Hwf. destruct w as [|d].
    - unfold write. destruct (get_host_ok m t y HR) as (m' & i & -> & _ & Hm). rewrite (Hm Hw). cbn [obind contents]. rewrite (r_fresh _ _ _ HR (r_host _ _ _ HR Hw)). cbn [obind store]. destruct r as [|e]; [done|].
      destruct (get_dev_cur m t y e HR Hr) as (q & E & Hq & Hp & Hl & Hmem). eexists _, _. split; [done|]. unfold read. cbn [get] in E |- *. unfold get_dev in *. change (by_place (set_host m (f y)) (Dev e)) with (by_place m (Dev e)). destruct (by_place m (Dev e)) as [q'|] eqn:Eb; [|by destruct (by_place_None _ _ Eb q)]. apply by_place_Some in Eb as [Hq' Hp']. assert (q' = q) as -> by (by eapply (r_uniq _ _ _ HR)). rewrite decide_True by done. cbn [obind contents]. change (by_id (set_host m (f y)) (pl_id q)) with (by_id m (pl_id q)). rewrite (by_id_ok _ _ Hwf Hq). cbn. by rewrite Hmem.
    - unfold write. destruct (get_dev_cur m t y d HR Hw) as (q & -> & Hq & Hp & Hl & Hmem). cbn [obind contents]. rewrite (by_id_ok _ _ Hwf Hq). cbn [obind store]. rewrite Hmem. pose proof (w_set_mem m (pl_id q) (f y) Hwf) as Hwf1. destruct r as [|e].
      + eexists. unfold read. cbn [get]. unfold get_host. destruct (scan_latest _ Hwf1) as (q1 & b & E1 & _ & _ & _ & Hb). assert (listed (set_mem m (pl_id q) (f y)) Host) as Hli by (rewrite set_mem_listed; by apply (r_cur _ _ _ HR)). eexists. split; [done|]. rewrite E1. cbn [obind fst]. destruct b; [|by destruct (Hb eq_refl)]. cbn [fetch]. change (m_host (set_mem m (pl_id q) (f y))) with (m_host m). rewrite (r_fresh _ _ _ HR (r_host _ _ _ HR Hr)). cbn [contents]. change (m_host (set_mem m (pl_id q) (f y))) with (m_host m). rewrite (r_fresh _ _ _ HR (r_host _ _ _ HR Hr)). done.
      + destruct (get_dev_cur m t y e HR Hr) as (k & _ & Hk & Hkp & Hkl & Hkm). assert (k <> q) as Hkq by congruence. assert (pl_id k <> pl_id q) as Hid by (intros E; exact (Hkq (id_inj m k q Hwf Hk Hq E))).
        assert (k ∈ m_pls (set_mem m (pl_id q) (f y))) as Hk1 by (apply set_mem_pls; exists k; split; [done|]; by rewrite decide_False). eexists _, _. split; [done|]. unfold read. cbn [get]. unfold get_dev.
        destruct (by_place (set_mem m (pl_id q) (f y)) (Dev e)) as [q'|] eqn:Eb; [|by destruct (by_place_None _ _ Eb k)]. apply by_place_Some in Eb as [(a & Ha & ->)%set_mem_pls Hp']. rewrite upd_place in Hp'. assert (a = k) as -> by (by eapply (r_uniq _ _ _ HR)). rewrite (decide_False (P := pl_id k = pl_id q)) by done. rewrite decide_True by done. cbn [obind contents]. rewrite (by_id_ok _ _ Hwf1 Hk1). cbn. by rewrite Hkm.
  Qed.
  (** A write in host memory to a matrix whose only current copies are on devices is lost: the next read, on the host or on such a device, shows the contents before it. *)
  Theorem C71_host_write_lost_refuted p x ops r f : safe (start p) ops -> Host ∉ t_cur (tracked (start p) ops) -> r = Host \/ r ∈ t_cur (tracked (start p) ops) ->
    exists m, run junk (create junk p x) (ops ++ [Write Host f; Read r]) = Ok (m, ideal x ops ++ [final x ops]).
  Proof.
    intros Hs Hw Hr. destruct (run_ok ops _ _ _ (r_create p x) Hs) as (m & E & HR). rewrite run_app, E. cbn [obind fst snd run]. set (t := tracked (start p) ops) in *. set (y := final x ops) in *. clearbody t y. clear E Hs.
    unfold write. destruct (get_host_ok m t y HR) as (m' & i & -> & HR' & _). cbn [obind contents]. rewrite (r_fresh _ _ _ HR' eq_refl). cbn [obind store].
    assert (R (set_host m' (f y)) (mkT (t_cur t) (t_used t) false) y) as HR2. { destruct HR'. constructor; cbn in *; try done. by apply w_set_host. }
    destruct (read_ok _ _ _ r HR2) as (m2 & E2 & _); [destruct Hr as [->|Hr]; [done|]; destruct r; [done|by left]|]. rewrite E2. cbn. eauto.
  Qed.
End Proofs.

(** A device that was used before and is used again gets the contents of the host memory, which may be older than those of another device. *)
Theorem C71_stale_refill_refuted {D} (junk x : D) (f g : D -> D) :
  exists m, run junk (create junk Host x) [Write (Dev 0) f; Write (Dev 1) g; Read (Dev 1); Read (Dev 0)] = Ok (m, [g (f x); f x]).
Proof. eexists. vm_compute. reflexivity. Qed.
(** Every read on the host of a matrix that is on a device transfers the matrix again and adds a placement. *)
Theorem C71_host_reads_grow_refuted {D} (junk x : D) d n : exists m, run junk (create junk (Dev d) x) (replicate n (Read Host)) = Ok (m, replicate n x) /\ length (m_pls m) = S n /\ m_latest m = [0].
Proof.
  assert (forall (m : mat D) q rest, m_pls m = q :: rest -> pl_id q = 0 -> pl_place q = Dev d -> pl_mem q = x -> m_latest m = [0] -> exists m', run junk m (replicate n (Read Host)) = Ok (m', replicate n x) /\ length (m_pls m') = length (m_pls m) + n /\ m_latest m' = [0]) as H.
  { induction n as [|n IH]; intros m q rest Hpl Hid Hp Hx Hl; cbn [replicate run]; [exists m; by rewrite Nat.add_0_r|].
    unfold read. cbn [get]. unfold get_host. rewrite Hl. cbn [scan]. assert (by_id m 0 = Some q) as Hb. { unfold by_id. rewrite Hpl. cbn. by rewrite decide_True. } rewrite Hb, Hp. cbn [obind fst fetch]. rewrite decide_False by done. cbn [obind fst fetch].
    assert (m_pls (to_host junk m q) = q :: (rest ++ [mkPl (m_next m) Host junk]) /\ m_latest (to_host junk m q) = [0] /\ m_host (to_host junk m q) = Some x) as (A & B & C). { unfold to_host. rewrite decide_False by congruence. destruct (m_host m); cbn; by rewrite Hpl, Hl, Hx. }
    cbn [contents]. rewrite C. cbn [obind fst snd]. destruct (IH _ q _ A Hid Hp Hx B) as (m' & -> & D1 & D2). cbn. eexists. split; [done|]. split; [|done]. rewrite D1, A, Hpl. cbn. rewrite app_length. cbn. lia. }
  destruct (H (create junk (Dev d) x) (mkPl 0 (Dev d) x) []) as (m & E & A & B); try done. exists m. done.
Qed.

(** ** Views of matrices on a device *)
(** A view of rows shows the first rows of the matrix, whichever rows were selected. *)
Theorem C71_row_view_refuted {V} (dev buf : list V) skip ro rows r c : length buf = rows * skip -> rows * skip <= length dev -> r < rows -> c < skip ->
  exists v, view_get dev buf skip ro 0 rows skip r c = Ok v /\ dev !! (r * skip + c) = Some v.
Proof.
  intros Hb Hd Hr Hc. unfold view_get. rewrite !decide_False by lia. rewrite bool_decide_false by lia.
  destruct (for_up_inv (fun i b => length b = rows * skip /\ forall k, k < i -> b !! k = dev !! k) 0 (rows * skip) (fun i b => let* x := rd dev i in wr b (0 + i) x) buf) as (b & -> & Hl & Hk).
  - lia.
  - split; [done|lia].
  - intros i b Hi [Hl Hk]. destruct (rd_lt dev i) as (x & Hx & ->); [lia|]. cbn [obind Nat.add]. rewrite wr_Ok by lia. eexists. split; [done|]. rewrite insert_length. split; [done|]. intros k Hki. destruct (decide (k = i)) as [->|]; [rewrite list_lookup_insert by lia; done|]. rewrite list_lookup_insert_ne by done. apply Hk. lia.
  - cbn [obind Nat.add]. assert (r * skip + c < rows * skip) as Hlt. { assert (S r * skip <= rows * skip) by (apply Nat.mul_le_mono_r; lia). cbn in *. lia. } destruct (rd_lt b (r * skip + c)) as (v & Hv & ->); [lia|]. exists v. split; [done|]. by rewrite <- Hk.
Qed.
(** A view of columns that begins far enough below the first row writes behind the memory it allocates. *)
Theorem C71_column_view_refuted {V} (dev buf : list V) skip ro co rows cols r c : length buf = rows * skip -> rows * cols <= length dev -> r < rows -> c < cols -> cols < skip -> rows <= ro -> view_get dev buf skip ro co rows cols r c = UB.
Proof.
  intros Hb Hd Hr Hc Hs Hro. unfold view_get. rewrite !decide_False by lia. assert (rows * cols < rows * skip) as Hlt by (apply Nat.mul_lt_mono_pos_l; lia). rewrite bool_decide_true by lia.
  assert (rows * skip <= ro * skip) by (apply Nat.mul_le_mono_r; lia). assert (0 < rows * cols) by (apply Nat.mul_pos_pos; lia).
  destruct (rows * cols) as [|n] eqn:En; [lia|]. destruct (rd_lt dev 0) as (x & _ & Ex); [lia|].
  unfold for_up. cbn [Nat.sub forn]. rewrite Ex. cbn [obind]. unfold wr. rewrite decide_False by lia. done.
Qed.

(** ** Examples *)
Lemma safe_cons {D} t o t' (ops : list (op D)) : allowed t o -> after t o = t' -> safe t' ops -> safe t (o :: ops).
Proof. by intros H <- Hs. Qed.
Example safe_example : safe (start Host) [Write Host S; Read (Dev 0); Read Host; Write (Dev 1) S; Read Host; Read (Dev 0); Read (Dev 1)].
Proof.
  eapply safe_cons; [intros q Hq; by apply elem_of_list_singleton in Hq|vm_compute; reflexivity|]. eapply safe_cons; [right; right; reflexivity|vm_compute; reflexivity|]. eapply safe_cons; [exact I|vm_compute; reflexivity|].
  eapply safe_cons; [cbn [allowed]; rewrite decide_False by (apply (bool_decide_unpack _); vm_compute; exact I); right; reflexivity|vm_compute; reflexivity|]. eapply safe_cons; [exact I|vm_compute; reflexivity|]. eapply safe_cons; [right; right; reflexivity|vm_compute; reflexivity|]. eapply safe_cons; [left; right; left|vm_compute; reflexivity|]. exact I.
Qed.
Example run_example : exists m, run 7 (create 7 Host 3) [Write Host S; Read (Dev 0); Read Host; Write (Dev 1) S; Read Host; Read (Dev 0); Read (Dev 1)] = Ok (m, [4; 4; 5; 5; 5]).
Proof. eexists. vm_compute. reflexivity. Qed.
(** reading on the device, writing on the host and reading on the device again shows the old contents *)
Example shared_example : exists m, run 7 (create 7 Host 3) [Read (Dev 0); Write Host S; Read (Dev 0)] = Ok (m, [3; 3]).
Proof. eexists. vm_compute. reflexivity. Qed.
(** a result computed on the device and changed on the host is not changed *)
Example lost_example : exists m, run 7 (create 7 (Dev 0) 3) [Write (Dev 0) S; Write Host S; Read Host] = Ok (m, [4]).
Proof. eexists. vm_compute. reflexivity. Qed.

Print Assumptions C71_coherent.
Print Assumptions C71_write_once.
Print Assumptions C71_write_shared_refuted.
Print Assumptions C71_column_view_refuted.
