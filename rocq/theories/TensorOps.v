(** Proofs about tensors, second part: reading and writing. *)
From stdpp Require Import base numbers list list_numbers.
From Coq Require Import Lia.
From Verif Require Import CppBase TensorModel TensorSpec TensorProofs.

Section tensor.
Context {V : Type}.
Implicit Types t u : ct V.

Lemma get_ok t ids : good t -> inside ids (t_shape t) -> get t ids = rd (t_data t) (lin_id t ids).
Proof.
  intros Hg Hi. unfold get. pose proof (inside_length _ _ Hi) as Hl. destruct (Nat.eqb_spec (rank t) 0) as [H0|H0]; [|by rewrite need_ok].
  apply rank0 in H0. rewrite H0 in Hl. destruct ids; [|done]. done.
Qed.
Lemma get_some t ids : good t -> inside ids (t_shape t) -> exists v, t_data t !! lin_id t ids = Some v /\ get t ids = Ok v.
Proof. intros Hg Hi. rewrite get_ok by done. apply rd_lt. by apply lin_id_lt. Qed.
Lemma tryGet_ok t ids : good t -> tracked t -> inside ids (t_shape t) -> rank t <> 0 ->
  (present t (chunk_of t ids) -> exists v, get t ids = Ok v /\ tryGet t ids = Ok (Some v)) /\ (~ present t (chunk_of t ids) -> tryGet t ids = Ok None).
Proof.
  intros Hg Ht Hi Hr. pose proof (inside_length _ _ Hi) as Hl. unfold tryGet. change (length (t_shape t)) with (rank t) in Hl. rewrite Hl, Nat.eqb_refl. cbn [negb]. apply Nat.eqb_neq in Hr as Hr'. rewrite Hr'.
  unfold value_there. rewrite need_ok by done. cbn [obind]. destruct (rd_lt (t_flags t) (chunk_no t (chunk_of t ids))) as (b & Hb & ->). { rewrite Ht. apply chunk_no_lt; [done|]. by apply chunk_of_inside. }
  cbn [obind]. unfold present. rewrite Hb. split.
  - intros [= ->]. cbn [negb]. rewrite (proj2 (all_below_iff _ _ Hl) Hi). destruct (get_some t ids Hg Hi) as (v & Hv & Hv'). exists v. split; [done|]. by rewrite (rd_Ok _ _ _ Hv).
  - intros Hn. by destruct b.
Qed.
Lemma tryGet_outside t ids : length ids <> rank t -> tryGet t ids = Ok None.
Proof. intros H. unfold tryGet. apply Nat.eqb_neq in H. by rewrite H. Qed.

Lemma good_with t fl d : good t -> length d = length (t_data t) -> good (with_data t fl d).
Proof. intros [] Hd. constructor; try done. cbn. congruence. Qed.

(** ** Writing an element *)
Lemma set_ok t ids v : good t -> tracked t -> inside ids (t_shape t) -> rank t <> 0 -> set t ids v = Ok (with_data t (<[chunk_no t (chunk_of t ids) := true]> (t_flags t)) (<[lin_id t ids := v]> (t_data t))).
Proof.
  intros Hg Ht Hi Hr. unfold set. apply Nat.eqb_neq in Hr as ->. rewrite need_ok by (by apply inside_length). cbn [obind]. rewrite wr_Ok by (by apply lin_id_lt). cbn [obind].
  rewrite wr_Ok; [done|]. rewrite Ht. apply chunk_no_lt; [done|]. by apply chunk_of_inside.
Qed.
Lemma chunk_no_inj t c c' : good t -> inside c (t_cpd t) -> inside c' (t_cpd t) -> chunk_no t c = chunk_no t c' -> c = c'.
Proof. intros Hg H1 H2. rewrite !chunk_no_eq by done. apply number_inj; [by apply good_cpd|done..]. Qed.

Definition cell t ids : option V := t_data t !! lin_id t ids.
(** What one write does *)
Definition next t (w : write V) (b : bool) t' : Prop :=
  good t' /\ tracked t' /\ t_shape t' = t_shape t /\ t_chunk t' = t_chunk t /\ b = accepts (t_shape t) (t_chunk t) w /\
  (forall ids, inside ids (t_shape t) -> cell t' ids = match effect (t_shape t) (t_chunk t) ids w with Some v => Some v | None => cell t ids end) /\
  (rank t <> 0 -> forall ids, inside ids (t_shape t) -> present t' (chunk_of t' ids) <-> present t (chunk_of t ids) \/ touches (t_shape t) (t_chunk t) ids w).
Lemma insert_next t ids v : good t -> tracked t -> inside ids (t_shape t) -> rank t <> 0 -> next t (Set_ ids v) true (with_data t (<[chunk_no t (chunk_of t ids) := true]> (t_flags t)) (<[lin_id t ids := v]> (t_data t))).
Proof.
  intros Hg Ht Hi Hr. split; [apply good_with; [done|by rewrite insert_length]|]. split; [unfold tracked; cbn; rewrite insert_length; exact Ht|]. split; [done|]. split; [done|]. split; [cbn; by rewrite bool_decide_true|]. split.
  - intros ids' Hi'. unfold cell. cbn [t_data with_data]. change (lin_id (with_data _ _ _) ids') with (lin_id t ids'). cbn [effect]. case_bool_decide as He.
    + subst. rewrite list_lookup_insert; [done|]. by apply lin_id_lt.
    + rewrite list_lookup_insert_ne; [done|]. intros E. apply He. by apply (lin_id_inj t).
  - intros _ ids' Hi'. unfold present. cbn [t_flags with_data]. change (chunk_no (with_data _ _ _)) with (chunk_no t). change (chunk_of (with_data _ _ _) ids') with (chunk_of t ids'). cbn [touches].
    pose proof (chunk_of_inside t ids Hg Hi) as C1. pose proof (chunk_of_inside t ids' Hg Hi') as C2. destruct (decide (chunk_of t ids = chunk_of t ids')) as [E|E].
    + rewrite E. rewrite list_lookup_insert by (rewrite Ht; by apply chunk_no_lt). split; [intros _; right; by split|done].
    + rewrite list_lookup_insert_ne by (intros E'; apply E; by apply (chunk_no_inj t)). split; [by left|]. intros [H|[_ H]]; [done|]. by destruct E.
Qed.
Lemma inside_nil ids : inside ids [] -> ids = [].
Proof. intros H. by inversion H. Qed.
Lemma elems0 t : good t -> rank t = 0 -> length (t_data t) = 1 /\ lin_id t [] = 0.
Proof.
  intros Hg H0. apply rank0 in H0. split; [|done]. rewrite (g_data _ Hg), (g_ccount _ Hg), (g_elems _ Hg), (g_cpd _ Hg), H0. pose proof (g_len _ Hg) as Hl. rewrite H0 in Hl. destruct (t_chunk t); [done|done].
Qed.
Lemma zero_next t w v b : good t -> tracked t -> rank t = 0 -> b = accepts (t_shape t) (t_chunk t) w -> effect (t_shape t) (t_chunk t) [] w = Some v -> next t w b (with_data t (t_flags t) (<[0 := v]> (t_data t))).
Proof.
  intros Hg Ht H0 Hb He. destruct (elems0 t Hg H0) as [E1 E2]. split; [apply good_with; [done|by rewrite insert_length]|]. do 4 (split; [done|]). split; [|done].
  intros ids Hi. rewrite (rank0 t H0) in Hi. apply inside_nil in Hi as ->. rewrite He. unfold cell. change (lin_id (with_data _ _ _) []) with (lin_id t []). rewrite E2. cbn. apply list_lookup_insert. lia.
Qed.
Lemma same_next t w b : good t -> tracked t -> b = accepts (t_shape t) (t_chunk t) w -> (forall ids, inside ids (t_shape t) -> effect (t_shape t) (t_chunk t) ids w = None /\ ~ touches (t_shape t) (t_chunk t) ids w) -> next t w b t.
Proof. intros Hg Ht Hb H. do 5 (split; [done|]). split; [intros ids Hi; by rewrite (proj1 (H ids Hi))|]. intros _ ids Hi. pose proof (proj2 (H ids Hi)). tauto. Qed.

Lemma trySet_next t ids v : good t -> tracked t -> exists b t', trySet t ids v = Ok (b, t') /\ next t (Set_ ids v) b t'.
Proof.
  intros Hg Ht. unfold trySet. destruct (Nat.eqb_spec (length ids) (rank t)) as [Hl|Hl]; cbn [negb].
  2: { eexists _, _. split; [reflexivity|]. assert (~ inside ids (t_shape t)) as Hn by (intros H; by apply Hl, inside_length). apply same_next; [done..| |].
    { cbn. by rewrite bool_decide_false. } intros ids' Hi'. cbn. split; [|tauto]. rewrite bool_decide_false; [done|]. intros ->. done. }
  destruct (Nat.eqb_spec (rank t) 0) as [H0|H0].
  - destruct (elems0 t Hg H0) as [E1 E2]. rewrite wr_Ok by lia. cbn [obind]. eexists _, _. split; [reflexivity|]. assert (ids = []) as -> by (destruct ids; [done|cbn in Hl; lia]). apply zero_next; try done. cbn. rewrite bool_decide_true; [done|]. rewrite (rank0 t H0). constructor.
  - destruct (all_below ids (t_shape t)) eqn:Hb.
    + apply (all_below_iff _ _ Hl) in Hb. rewrite set_ok by done. cbn [obind]. eexists _, _. split; [reflexivity|]. by apply insert_next.
    + apply (all_below_false _ _ Hl) in Hb. eexists _, _. split; [reflexivity|]. apply same_next; [done..| |]. { cbn. by rewrite bool_decide_false. }
      intros ids' Hi'. cbn. split; [|tauto]. rewrite bool_decide_false; [done|]. intros ->. done.
Qed.

(** ** Writing a chunk *)
Lemma chunk_pos_eq t cids : good t -> chunk_pos t cids = t_elems t * chunk_no t cids.
Proof. intros Hg. unfold chunk_pos, chunk_no. rewrite (g_cstr _ Hg), sum_prod_scale, (g_elems _ Hg). done. Qed.
Lemma grab_all (vs : list V) n : length vs = n -> grab vs 0 n = Ok vs.
Proof. intros <-. unfold grab. rewrite Nat.leb_refl. cbn. by rewrite firstn_all. Qed.
Lemma blit_lookup (d vs d' : list V) l k : blit d l vs = Ok d' -> length d' = length d /\ d' !! k = if decide (l <= k < l + length vs) then vs !! (k - l) else d !! k.
Proof.
  unfold blit. destruct (Nat.leb_spec (l + length vs) (length d)) as [H|]; [|done]. intros [= <-]. split. { rewrite !app_length, take_length, drop_length. lia. }
  destruct (decide (l <= k < l + length vs)) as [Hk|Hk].
  - rewrite lookup_app_r by (rewrite take_length; lia). rewrite take_length, Nat.min_l by lia. rewrite lookup_app_l by lia. done.
  - destruct (decide (k < l)) as [Hk'|Hk'].
    + rewrite lookup_app_l by (rewrite take_length; lia). by rewrite lookup_take by lia.
    + rewrite lookup_app_r by (rewrite take_length; lia). rewrite take_length, Nat.min_l by lia. rewrite lookup_app_r by lia. rewrite lookup_drop. f_equal. lia.
Qed.
Lemma chunk_below t cids : good t -> inside cids (t_cpd t) -> inside cids (t_shape t).
Proof.
  intros Hg. rewrite (g_cpd _ Hg). pose proof (g_len _ Hg) as Hl. pose proof (g_chunk _ Hg) as Hc. revert cids Hl Hc. generalize (t_chunk t). induction (t_shape t) as [|d ds IH]; intros [|c cs] ids Hl Hc Hi; try done.
  destruct ids as [|i ids]; [by inversion Hi|]. cbn in Hi. apply Forall2_cons in Hi as [Hi0 Hi]. apply Forall_cons in Hc as [Hc0 Hc]. constructor; [|apply (IH cs); [cbn in Hl; lia|exact Hc|exact Hi]]. apply (ceil_lt d c) in Hi0; [|done]. nia.
Qed.
Lemma trySetChunk_next t cids vs : good t -> tracked t -> inside cids (t_cpd t) -> length vs = t_elems t -> exists b t', trySetChunk t cids vs = Ok (b, t') /\ next t (SetChunk cids vs) b t'.
Proof.
  intros Hg Ht Hi Hv. pose proof (chunk_below t cids Hg Hi) as Hs. pose proof (inside_length _ _ Hs) as Hl. change (length (t_shape t)) with (rank t) in Hl. unfold trySetChunk. rewrite Hl, Nat.eqb_refl. cbn [negb].
  destruct (Nat.eqb_spec (rank t) 0) as [H0|H0].
  - destruct (elems0 t Hg H0) as [E1 E2]. rewrite (g_data _ Hg) in E1. destruct (rd_lt vs 0) as (v & Hv0 & ->); [nia|]. cbn [obind]. rewrite wr_Ok by (rewrite (g_data _ Hg); lia). cbn [obind]. eexists _, _. split; [reflexivity|].
    pose proof (g_cpd _ Hg) as Hc. rewrite (rank0 t H0) in Hc. cbn in Hc. rewrite Hc in Hi. apply inside_nil in Hi as ->. apply zero_next; try done.
    + cbn. rewrite (rank0 t H0). cbn. rewrite bool_decide_true; [done|]. constructor.
    + cbn. pose proof (g_len _ Hg) as Hn. rewrite (rank0 t H0) in Hn. destruct (t_chunk t); [|done]. done.
  - rewrite (proj2 (all_below_iff _ _ Hl) Hs). rewrite grab_all by done. cbn [obind]. pose proof (chunk_no_lt t cids Hg Hi) as Hno.
    destruct (blit (t_data t) (chunk_pos t cids) vs) as [d| |] eqn:Eb.
    2, 3: exfalso; unfold blit in Eb; rewrite chunk_pos_eq, (g_data _ Hg) in Eb by done; destruct (Nat.leb_spec (t_elems t * chunk_no t cids + length vs) (t_ccount t * t_elems t)); [done|nia].
    cbn [obind]. rewrite wr_Ok by (by rewrite Ht). cbn [obind]. eexists _, _. split; [reflexivity|].
    split; [apply good_with; [done|by apply (blit_lookup _ _ _ _ 0 Eb)]|]. split; [unfold tracked; cbn; rewrite insert_length; exact Ht|]. split; [done|]. split; [done|]. split; [cbn; rewrite <- (g_cpd _ Hg); by rewrite bool_decide_true|]. split.
    + intros ids Hi'. unfold cell. cbn [t_data with_data]. change (lin_id (with_data _ _ _) ids) with (lin_id t ids). rewrite (proj2 (blit_lookup _ _ _ _ (lin_id t ids) Eb)). rewrite lin_id_eq, chunk_pos_eq by done. cbn [effect].
      pose proof (place_lt t ids Hg Hi') as Hp. pose proof (chunk_of_inside t ids Hg Hi') as Hc. change (chunk_index (t_chunk t) ids) with (chunk_of t ids). case_bool_decide as He.
      * rewrite He. rewrite decide_True by lia. replace (_ - _) with (number (t_chunk t) (place (t_chunk t) ids)) by lia. destruct (lookup_lt_is_Some_2 vs (number (t_chunk t) (place (t_chunk t) ids))) as [x Hx]; [lia|]. by rewrite Hx.
      * rewrite decide_False; [done|]. intros Hk. apply He. apply (chunk_no_inj t); [done..|]. nia.
    + intros _ ids Hi'. unfold present. cbn [t_flags with_data]. change (chunk_no (with_data _ _ _)) with (chunk_no t). change (chunk_of (with_data _ _ _) ids) with (chunk_of t ids). cbn [touches]. change (chunk_index (t_chunk t) ids) with (chunk_of t ids).
      pose proof (chunk_of_inside t ids Hg Hi') as C2. destruct (decide (cids = chunk_of t ids)) as [E|E].
      * rewrite E. rewrite list_lookup_insert by (rewrite Ht; by apply chunk_no_lt). split; [intros _; by right|done].
      * rewrite list_lookup_insert_ne by (intros E'; apply E; by apply (chunk_no_inj t)). tauto.
Qed.

(** ** Histories *)
Lemma runs_ok ws : forall t, good t -> tracked t -> Forall (legal (t_shape t) (t_chunk t)) ws -> exists t', runs t ws = Ok (accepts (t_shape t) (t_chunk t) <$> ws, t') /\
  good t' /\ tracked t' /\ t_shape t' = t_shape t /\ t_chunk t' = t_chunk t /\
  (forall ids, inside ids (t_shape t) -> cell t' ids = match last_effect (t_shape t) (t_chunk t) ids ws with Some v => Some v | None => cell t ids end) /\
  (rank t <> 0 -> forall ids, inside ids (t_shape t) -> present t' (chunk_of t' ids) <-> present t (chunk_of t ids) \/ Exists (touches (t_shape t) (t_chunk t) ids) ws).
Proof.
  induction ws as [|w ws IH]; intros t Hg Ht Hl. { exists t. cbn. do 6 (split; [done|]). intros _ ids _. split; [by left|]. intros [?|H]; [done|]. by apply Exists_nil in H. }
  apply Forall_cons in Hl as [Hw Hl]. assert (exists b t1, run1 t w = Ok (b, t1) /\ next t w b t1) as (b & t1 & E1 & N1 & N2 & N3 & N4 & N5 & N6 & N7).
  { destruct w as [ids v|cids vs]; [by apply trySet_next|]. destruct Hw as [Hw1 Hw2]. apply trySetChunk_next; try done; [by rewrite (g_cpd _ Hg)|by rewrite (g_elems _ Hg)]. }
  destruct (IH t1 N1 N2) as (t' & E2 & H1 & H2 & H3 & H4 & H5 & H6); [by rewrite N3, N4|]. exists t'. cbn [runs]. rewrite E1. cbn [obind]. rewrite E2. cbn [obind]. rewrite N3, N4 in *. split; [by rewrite N5|]. split; [done|]. split; [done|]. split; [congruence|]. split; [congruence|]. split.
  - intros ids Hi. cbn [last_effect]. rewrite H5 by done. destruct (last_effect (t_shape t) (t_chunk t) ids ws); [done|]. by apply N6.
  - intros Hr ids Hi. rewrite H6; [|unfold rank in *; by rewrite N3|done]. rewrite N7 by done. rewrite Exists_cons. tauto.
Qed.

(** ** New tensors *)
Lemma new_ok shape chunk flag junk : length chunk = length shape -> Forall (fun d => 0 < d) shape -> Forall (fun d => 0 < d) chunk -> length junk = chunked_size shape chunk ->
  exists t, chunked_new shape chunk flag junk = Ok t /\ good t /\ tracked t /\ t_shape t = shape /\ t_chunk t = chunk /\ t_flags t = replicate (t_ccount t) flag /\ t_data t = junk.
Proof.
  intros Hl Hs Hc Hj. unfold chunked_new. rewrite Hl, Nat.eqb_refl. cbn [negb]. rewrite (proj2 (has_zero_false shape)), (proj2 (has_zero_false chunk)) by done. cbn [orb]. eexists. split; [reflexivity|].
  split; [by constructor|]. split; [unfold tracked; cbn; by rewrite replicate_length|]. done.
Qed.
Lemma iota_ok num shape chunk junk : length chunk = length shape -> Forall (fun d => 0 < d) shape -> Forall (fun d => 0 < d) chunk -> length junk = chunked_size shape chunk ->
  exists t, chunked_iota num shape chunk junk = Ok t /\ good t /\ tracked t /\ t_shape t = shape /\ t_chunk t = chunk /\ (forall cids, inside cids (t_cpd t) -> present t cids) /\ forall ids, inside ids shape -> cell t ids = Some (num (number shape ids)).
Proof.
  intros Hl Hs Hc Hj. destruct (new_ok shape chunk true junk Hl Hs Hc Hj) as (t0 & E & H1 & H2 & H3 & H4 & H5 & H6). unfold chunked_iota. rewrite E. cbn [obind].
  assert (forall cids, inside cids (t_cpd t0) -> present t0 cids) as Hp. { intros cids Hi. unfold present. rewrite H5. apply lookup_replicate. split; [done|]. by apply chunk_no_lt. }
  destruct (Nat.eqb_spec (rank t0) 0) as [H0|H0].
  - destruct (elems0 t0 H1 H0) as [L1 L2]. rewrite wr_Ok by lia. cbn [obind]. eexists. split; [reflexivity|]. split; [apply good_with; [done|by rewrite insert_length]|]. do 4 (split; [done|]).
    intros ids Hi. pose proof (rank0 t0 H0) as Hn. rewrite H3 in Hn. subst shape. rewrite Hn in Hi |- *. apply inside_nil in Hi as ->. unfold cell. change (lin_id (with_data _ _ _) []) with (lin_id t0 []). rewrite L2. cbn. apply list_lookup_insert. lia.
  - destruct (for_up_inv (fun i t => good t /\ tracked t /\ t_shape t = shape /\ t_chunk t = chunk /\ t_cpd t = t_cpd t0 /\ (forall cids, inside cids (t_cpd t) -> present t cids) /\ forall ids, inside ids shape -> number shape ids < i -> cell t ids = Some (num (number shape ids))) 0 (count shape)
      (fun i t => set t (ids_of (strides shape) i) (num i)) t0) as (t & Et & Ht).
    + lia.
    + do 6 (split; [done|]). intros ids _ Hlt. lia.
    + intros i t Hi (I1 & I2 & I3 & I4 & I5 & I6 & I7). destruct (ids_of_spec shape i Hs ltac:(lia)) as [J1 J2]. set (ids := ids_of (strides shape) i) in *.
      rewrite set_ok; [|done..|by rewrite I3|unfold rank in *; congruence]. eexists. split; [reflexivity|]. destruct (insert_next t ids (num i) I1 I2 ltac:(by rewrite I3) ltac:(unfold rank in *; congruence)) as (N1 & N2 & N3 & N4 & _ & N6 & N7).
      split; [done|]. split; [done|]. split; [done|]. split; [done|]. split; [done|]. split.
      * intros cids Hci. specialize (I6 cids Hci). unfold present in *. cbn [t_flags with_data]. change (chunk_no (with_data _ _ _) cids) with (chunk_no t cids). destruct (decide (chunk_no t (chunk_of t ids) = chunk_no t cids)) as [->|Hne]; [|by rewrite list_lookup_insert_ne].
        apply list_lookup_insert. rewrite I2. by apply chunk_no_lt.
      * intros ids' Hi' Hlt. rewrite N6 by (by rewrite I3). cbn [effect]. case_bool_decide as He.
        -- subst ids'. congruence.
        -- apply I7; [done|]. destruct (Nat.eq_dec (number shape ids') i) as [Hx|Hx]; [|lia]. exfalso. apply He. apply (number_inj shape); [done..|]. congruence.
    + destruct Ht as (I1 & I2 & I3 & I4 & I5 & I6 & I7). exists t. split; [done|]. do 4 (split; [done|]). split; [done|]. intros ids Hi. apply I7; [done|]. by apply number_lt.
Qed.
End tensor.
