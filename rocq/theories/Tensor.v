(** C67: a chunked tensor behaves like an array under every history of writes. C68: rechunking, slicing, converting and comparing tensors keep the elements. *)
From stdpp Require Import base numbers list list_numbers.
From Coq Require Import Lia.
From Verif Require Import CppBase TensorModel TensorSpec TensorProofs TensorOps TensorOps2 TensorOps3.

Definition positive (ds : list nat) : Prop := Forall (fun d => 0 < d) ds.

Section theorems.
Context {V : Type}.
Implicit Types t u : ct V.

(** * C67 *)
(** Creating a tensor fails exactly if an extent of the tensor or of the chunks is zero. A new tensor is well-formed and has the shape asked for. *)
Theorem C67_create shape chunk flag (junk : list V) : length chunk = length shape -> length junk = chunked_size shape chunk ->
  (chunked_new shape chunk flag junk = Throw <-> 0 ∈ shape \/ 0 ∈ chunk) /\ (forall t, chunked_new shape chunk flag junk = Ok t -> good t /\ tracked t /\ t_shape t = shape /\ t_chunk t = chunk).
Proof.
  intros Hl Hj. assert (forall l : list nat, has_zero l = true <-> 0 ∈ l) as Hz. { intros l. unfold has_zero. rewrite existsb_exists. split; [intros (x & H1 & H2); apply Nat.eqb_eq in H2; subst; by apply elem_of_list_In|]. intros H. exists 0. split; [by apply elem_of_list_In|done]. }
  split.
  - unfold chunked_new. rewrite Hl, Nat.eqb_refl. cbn [negb]. rewrite <- (Hz shape), <- (Hz chunk). destruct (has_zero shape), (has_zero chunk); cbn; naive_solver.
  - intros t Ht. assert (has_zero shape = false /\ has_zero chunk = false) as [Z1 Z2]. { unfold chunked_new in Ht. rewrite Hl, Nat.eqb_refl in Ht. cbn [negb] in Ht. destruct (has_zero shape), (has_zero chunk); done. }
    apply has_zero_false in Z1, Z2. destruct (new_ok shape chunk flag junk Hl Z1 Z2 Hj) as (t' & E & H1 & H2 & H3 & H4 & _). rewrite E in Ht. injection Ht as [= <-]. done.
Qed.
(** A tensor created empty shows nothing, one created with a value shows the value everywhere, and a numbered one shows the numbers of the elements. *)
Theorem C67_new shape chunk (junk : list V) ids v (num : nat -> V) : length chunk = length shape -> positive shape -> positive chunk -> length junk = chunked_size shape chunk -> inside ids shape ->
  (shape <> [] -> exists t, chunked_new shape chunk false junk = Ok t /\ tryGet t ids = Ok None) /\
  (exists t, chunked_fill v shape chunk = Ok t /\ tryGet t ids = Ok (Some v) /\ get t ids = Ok v) /\
  (exists t, chunked_iota num shape chunk junk = Ok t /\ tryGet t ids = Ok (Some (num (number shape ids))) /\ get t ids = Ok (num (number shape ids))).
Proof.
  intros Hl Hs Hc Hj Hi.
  assert (forall t x, good t -> tracked t -> t_shape t = shape -> (forall c, inside c (t_cpd t) -> present t c) -> cell t ids = Some x -> tryGet t ids = Ok (Some x) /\ get t ids = Ok x) as Hall.
  { intros t x Hg Ht Es Hp Hx. assert (inside ids (t_shape t)) as Hi' by (by rewrite Es). assert (get t ids = Ok x) as E by (rewrite get_ok by done; by apply rd_Ok). split; [|done]. destruct (decide (rank t = 0)) as [H0|H0].
    - unfold tryGet. rewrite (inside_length _ _ Hi'). change (length (t_shape t)) with (rank t). rewrite Nat.eqb_refl. cbn [negb]. unfold get in E. rewrite H0 in *. cbn [Nat.eqb] in *. by rewrite E.
    - destruct (proj1 (tryGet_ok t ids Hg Ht Hi' H0)) as (y & E1 & E2); [apply Hp; by apply chunk_of_inside|]. rewrite E in E1. injection E1 as [= <-]. done. }
  split; [|split].
  - intros Hn. destruct (new_ok shape chunk false junk Hl Hs Hc Hj) as (t & E & H1 & H2 & H3 & H4 & H5 & H6). exists t. split; [done|]. apply tryGet_ok; [done|done|by rewrite H3|unfold rank; rewrite H3; by destruct shape|]. unfold present. rewrite H5. intros Hx. apply lookup_replicate in Hx as [? _]. done.
  - unfold chunked_fill. destruct (new_ok shape chunk true (replicate (chunked_size shape chunk) v) Hl Hs Hc ltac:(by rewrite replicate_length)) as (t & E & H1 & H2 & H3 & H4 & H5 & H6). exists t. split; [done|]. apply Hall; try done; [by apply complete_flags|]. unfold cell. rewrite H6. apply lookup_replicate. split; [done|].
    pose proof (lin_id_lt t ids H1 ltac:(by rewrite H3)) as K. by rewrite H6, replicate_length in K.
  - destruct (iota_ok num shape chunk junk Hl Hs Hc Hj) as (t & E & H1 & H2 & H3 & H4 & H5 & H6). exists t. split; [done|]. apply Hall; try done. by apply H6.
Qed.
Lemma effect_touches shape chunk ids (w : write V) v : inside ids shape -> effect shape chunk ids w = Some v -> touches shape chunk ids w.
Proof. intros Hi. destruct w as [ids' x|cids vs]; cbn; case_bool_decide; try done; by subst. Qed.
Lemma last_touches shape chunk ids (ws : list (write V)) v : inside ids shape -> last_effect shape chunk ids ws = Some v -> Exists (touches shape chunk ids) ws.
Proof. intros Hi. induction ws as [|w ws IH]; [done|]. cbn. destruct (last_effect shape chunk ids ws) as [x|] eqn:E; [intros [= ->]; right; by apply IH|intros H; left; by eapply effect_touches]. Qed.
(** After any list of writes of elements and chunks to a new tensor: the writes inside of the tensor were accepted and no other, an element shows the value written last,
    an element of a chunk in which nothing was written shows nothing, and the elements of a chunk can be read together. *)
Theorem C67_history shape chunk (junk : list V) ws : length chunk = length shape -> positive shape -> positive chunk -> length junk = chunked_size shape chunk -> shape <> [] -> Forall (legal shape chunk) ws ->
  exists t0 t, chunked_new shape chunk false junk = Ok t0 /\ runs t0 ws = Ok (accepts shape chunk <$> ws, t) /\ good t /\ tracked t /\
  (forall ids v, inside ids shape -> last_effect shape chunk ids ws = Some v -> tryGet t ids = Ok (Some v)) /\
  (forall ids, inside ids shape -> Forall (fun w => ~ touches shape chunk ids w) ws -> tryGet t ids = Ok None) /\
  (forall ids, inside ids shape -> Exists (touches shape chunk ids) ws -> exists vs, tryGetChunk t (chunk_index chunk ids) = Ok (Some vs) /\ exists v, vs !! number chunk (place chunk ids) = Some v /\ tryGet t ids = Ok (Some v)) /\
  (forall ids, inside ids shape -> Forall (fun w => ~ touches shape chunk ids w) ws -> tryGetChunk t (chunk_index chunk ids) = Ok None) /\
  (forall ids, length ids <> length shape -> tryGet t ids = Ok None).
Proof.
  intros Hl Hs Hc Hj Hn Hw. destruct (new_ok shape chunk false junk Hl Hs Hc Hj) as (t0 & E & H1 & H2 & H3 & H4 & H5 & H6). exists t0. destruct (runs_ok ws t0 H1 H2) as (t & Er & R1 & R2 & R3 & R4 & R5 & R6); [by rewrite H3, H4|]. rewrite H3, H4 in *. exists t. do 4 (split; [done|]).
  assert (rank t <> 0) as Hr by (unfold rank; rewrite R3; by destruct shape). assert (rank t0 <> 0) as Hr0 by (unfold rank; rewrite H3; by destruct shape).
  assert (forall ids, inside ids shape -> present t (chunk_of t ids) <-> Exists (touches shape chunk ids) ws) as Hp.
  { intros ids Hi. rewrite (R6 Hr0) by done. split; [|by right]. intros [Hx|?]; [|done]. unfold present in Hx. rewrite H5 in Hx. apply lookup_replicate in Hx as [? _]. done. }
  assert (forall ids, inside ids shape -> Forall (fun w => ~ touches shape chunk ids w) ws -> ~ present t (chunk_of t ids)) as Hnp by (intros ids Hi Hf Hx; apply Hp in Hx; [|done]; revert Hx; by apply Forall_not_Exists).
  assert (forall ids, chunk_index chunk ids = chunk_of t ids) as Hci by (intros ids; unfold chunk_index, chunk_of; by rewrite R4).
  split; [|split; [|split; [|split]]].
  - intros ids v Hi Hv. assert (inside ids (t_shape t)) as Hi' by (by rewrite R3). destruct (proj1 (tryGet_ok t ids R1 R2 Hi' Hr)) as (x & E1 & E2); [apply Hp; [done|]; by eapply last_touches|]. rewrite E2. rewrite get_ok in E1 by done. apply rd_inv in E1. specialize (R5 ids Hi). rewrite Hv in R5. unfold cell in R5. congruence.
  - intros ids Hi Hf. apply tryGet_ok; [done|done|by rewrite R3|done|]. by apply Hnp.
  - intros ids Hi He. assert (inside ids (t_shape t)) as Hi' by (by rewrite R3). apply Hp in He; [|done]. destruct (proj1 (tryGet_ok t ids R1 R2 Hi' Hr) He) as (v & V1 & V2). destruct (proj1 (tryGetChunk_ok t (chunk_of t ids) R1 R2 (chunk_of_inside t ids R1 Hi') Hr) He) as (vs & W1 & W2 & W3). exists vs. rewrite Hci. split; [done|]. exists v. split; [|done]. rewrite <- R4. rewrite W3; [|done|by rewrite R4, Hci]. unfold cell. rewrite get_ok in V1 by done. by apply rd_inv in V1.
  - intros ids Hi Hf. rewrite Hci. apply tryGetChunk_ok; [done|done|apply chunk_of_inside; [done|by rewrite R3]|done|]. by apply Hnp.
  - intros ids Hne. apply tryGet_outside. unfold rank. by rewrite R3.
Qed.
(** The chunks listed for a range of indices are those that contain an element of the range, each once; nothing is listed if the range is not inside of the tensor. *)
Theorem C67_chunks_for t rs : good t -> t_shape t <> [] ->
  (~ proper_ranges rs (t_shape t) -> chunks_for t rs = None /\ chunk_range t rs = None) /\
  (proper_ranges rs (t_shape t) -> exists l rc, chunks_for t rs = Some l /\ NoDup l /\ (forall c, c ∈ l <-> exists ids, in_ranges ids rs /\ chunk_index (t_chunk t) ids = c) /\ chunk_range t rs = Some rc /\ forall c, in_ranges c rc <-> c ∈ l).
Proof.
  intros Hg Hn. unfold chunks_for, chunk_range. assert (rank t <> 0) as Hr by (unfold rank; by destruct (t_shape t)). apply Nat.eqb_neq in Hr as Hr'. split.
  - intros Hp. destruct (Nat.eqb_spec (length rs) (rank t)) as [Hl|Hl]; [|done]. cbn [negb]. rewrite Hr'. destruct (ranges_ok rs (t_shape t)) eqn:E; [|done]. by apply (ranges_ok_iff _ _ Hl) in E.
  - intros Hp. pose proof (Forall2_length _ _ _ Hp) as Hl. change (length (t_shape t)) with (rank t) in Hl. rewrite Hl, Nat.eqb_refl. cbn [negb]. rewrite Hr'. rewrite (proj2 (ranges_ok_iff _ _ Hl) Hp). eexists _, _. split; [reflexivity|]. split; [apply chunk_list_nodup; [by rewrite !zip_with_length|apply cnts_pos]|].
    split; [intros c; apply (range_chunks rs (t_chunk t) (t_shape t)); [apply (g_len _ Hg)|apply (g_chunk _ Hg)|done]|]. split; [reflexivity|]. intros c. rewrite chunk_list_elem; [|by rewrite !zip_with_length|apply cnts_pos].
    pose proof (g_len _ Hg) as Hc. change (length (t_shape t)) with (rank t) in Hc. rewrite <- Hl in Hc. pose proof (g_chunk _ Hg) as Hpc. clear -Hp Hc Hpc. revert c Hc Hpc. generalize (t_chunk t). induction Hp as [|r d rs ds H _ IH]; intros [|k chunk] c Hc Hpc; try done.
    + split; [intros Hi; exists []; split; [constructor|by inversion Hi]|intros (m & Hm & ->); by constructor].
    + apply Forall_cons in Hpc as [Hk Hpc]. cbn in Hc. assert (fst r / k <= (snd r - 1) / k) by (apply Nat.div_le_mono; lia). split.
      * intros Hi. cbn in Hi. destruct c as [|x c]; [by inversion Hi|]. apply Forall2_cons in Hi as [Hx Hi]. cbn [fst snd] in Hx. apply IH in Hi as (m & Hm & ->); [|lia|done]. exists (x - fst r / k :: m). split; [constructor; [lia|done]|]. cbn. f_equal. lia.
      * intros (m & Hm & ->). cbn in Hm. destruct m as [|x m]; [by inversion Hm|]. apply Forall2_cons in Hm as [Hx Hm]. cbn. constructor; [cbn; lia|]. apply IH; [lia|done|]. by exists m.
Qed.
(** Likewise for a range of chunks. *)
Theorem C67_chunks_in t rs : good t -> t_shape t <> [] ->
  (~ proper_ranges rs (t_cpd t) -> chunks_in t rs = None) /\ (proper_ranges rs (t_cpd t) -> exists l, chunks_in t rs = Some l /\ NoDup l /\ forall c, c ∈ l <-> in_ranges c rs).
Proof.
  intros Hg Hn. unfold chunks_in. assert (rank t <> 0) as Hr by (unfold rank; by destruct (t_shape t)). apply Nat.eqb_neq in Hr as Hr'. destruct (good_cpd t Hg) as [C1 C2]. split.
  - intros Hp. destruct (Nat.eqb_spec (length rs) (rank t)) as [Hl|Hl]; [|done]. cbn [negb]. rewrite Hr'. destruct (ranges_ok rs (t_cpd t)) eqn:E; [|done]. apply ranges_ok_iff in E; [done|lia].
  - intros Hp. pose proof (Forall2_length _ _ _ Hp) as Hl. rewrite C2 in Hl. rewrite Hl, Nat.eqb_refl. cbn [negb]. rewrite Hr'. rewrite (proj2 (ranges_ok_iff rs (t_cpd t) ltac:(lia)) Hp). rewrite (extents_size _ _ Hp). pose proof (sizes_pos _ _ Hp) as Hs. eexists. split; [reflexivity|]. split; [apply chunk_list_nodup; [by rewrite !fmap_length|done]|].
    intros c. rewrite chunk_list_elem; [|by rewrite !fmap_length|done]. clear -Hp. revert c. induction Hp as [|r d rs ds H _ IH]; intros c.
    + split; [intros (m & Hm & ->); by constructor|intros Hi; exists []; split; [constructor|by inversion Hi]].
    + split.
      * intros (m & Hm & ->). cbn in Hm. destruct m as [|x m]; [by inversion Hm|]. apply Forall2_cons in Hm as [Hx Hm]. unfold size_of in Hx. cbn. constructor; [lia|]. apply IH. by exists m.
      * intros Hi. destruct c as [|x c]; [by inversion Hi|]. apply Forall2_cons in Hi as [Hx Hi]. apply IH in Hi as (m & Hm & ->). exists (x - fst r :: m). split; [constructor; [unfold size_of; lia|done]|]. cbn. f_equal. lia.
Qed.

(** * C68 *)
(** Rechunking a complete tensor keeps all elements; an incomplete tensor is left as it is. *)
Theorem C68_rechunk t chunk junk f : good t -> tracked t -> t_shape t <> [] -> shows t f -> length chunk = length (t_shape t) -> positive chunk -> length junk = chunked_size (t_shape t) chunk ->
  (complete t -> exists u, tryRechunk junk t chunk = Ok (true, u) /\ good u /\ t_shape u = t_shape t /\ t_chunk u = chunk /\ shows u f) /\ (~ complete t -> tryRechunk junk t chunk = Ok (false, t)).
Proof.
  intros Hg Ht Hn Hf Hl Hp Hj. assert (rank t <> 0) as Hr by (unfold rank; by destruct (t_shape t)). split.
  - intros Hc. destruct (rechunk_ok t chunk junk Hg Ht Hc Hr Hl Hp Hj) as (u & E & H1 & H2 & H3 & H4 & H5). exists u. do 4 (split; [done|]). apply shows_cell; [done|]. rewrite H2. intros ids Hi. rewrite H5 by done. by apply (proj1 (shows_cell t f Hg) Hf).
  - intros Hc. unfold tryRechunk. change (length (t_shape t)) with (rank t) in Hl. rewrite Hl, Nat.eqb_refl. cbn [negb]. pose proof Ht as Ht'. unfold tracked in Ht'. rewrite Ht', Nat.leb_refl. cbn [negb]. rewrite firstn_all2 by lia. destruct (forallb id (t_flags t)) eqn:E; [|done]. destruct Hc. apply complete_flags; [done..|]. rewrite <- Ht'. clear -E. induction (t_flags t) as [|b l IH]; [done|]. cbn in *. apply andb_true_iff in E as [E1 E2]. cbn in E1. subst. f_equal. by apply IH.
Qed.
(** The tensor keeps the flags of its old chunks. If there are more new ones, asking for an element of a late chunk is undefined behaviour. *)
Theorem C68_rechunk_flags_refuted t chunk junk : good t -> tracked t -> complete t -> t_shape t <> [] -> length chunk = length (t_shape t) -> positive chunk -> length junk = chunked_size (t_shape t) chunk ->
  exists u, tryRechunk junk t chunk = Ok (true, u) /\ forall ids, inside ids (t_shape u) -> t_ccount t <= chunk_no u (chunk_of u ids) -> tryGet u ids = UB.
Proof.
  intros Hg Ht Hc Hn Hl Hp Hj. assert (rank t <> 0) as Hr by (unfold rank; by destruct (t_shape t)). destruct (rechunk_ok t chunk junk Hg Ht Hc Hr Hl Hp Hj) as (u & E & H1 & H2 & H3 & H4 & H5). exists u. split; [done|]. intros ids Hi Hlt. unfold tryGet. rewrite (inside_length _ _ Hi). change (length (t_shape u)) with (rank u). rewrite Nat.eqb_refl. cbn [negb]. assert (rank u <> 0) as Hr' by (unfold rank; by rewrite H2). apply Nat.eqb_neq in Hr' as ->.
  unfold value_there. rewrite need_ok by (by apply inside_length). cbn [obind]. unfold rd. rewrite lookup_ge_None_2; [done|]. rewrite H4, Ht. done.
Qed.
(** Slicing to a contiguous tensor: the elements of the ranges, if they are inside of the tensor and their chunks are there, and nothing otherwise. *)
Theorem C68_dice_to_contiguous t rs junk f : good t -> tracked t -> t_shape t <> [] -> shows t f -> length junk = count (size_of <$> rs) ->
  (proper_ranges rs (t_shape t) -> (forall ids, in_ranges ids rs -> present t (chunk_of t ids)) -> exists c, dice_cont junk t rs = Ok (Some c) /\ c_shape c = size_of <$> rs /\ cont_shows c (fun ids => f (shifted ids rs))) /\
  (~ proper_ranges rs (t_shape t) \/ (exists ids, in_ranges ids rs /\ ~ present t (chunk_of t ids)) -> dice_cont junk t rs = Ok None).
Proof.
  intros Hg Ht Hn Hf Hj. assert (rank t <> 0) as Hr by (unfold rank; by destruct (t_shape t)). split.
  - intros Hp Hpr. destruct (dice_cont_ok t rs junk f Hg Ht Hr Hf Hp Hj Hpr) as (c & E & H1 & H2 & H3). exists c. split; [done|]. split; [done|]. by apply fresh_shows.
  - by apply dice_cont_none.
Qed.
(** Slicing a contiguous tensor, and reading and writing its elements *)
Theorem C68_contiguous (c : cont V) rs junk f : fresh c -> cont_shows c f -> length junk = count (size_of <$> rs) ->
  (proper_ranges rs (c_shape c) -> exists c', cont_dice junk c rs = Ok (Some c') /\ c_shape c' = size_of <$> rs /\ cont_shows c' (fun ids => f (shifted ids rs))) /\ (~ proper_ranges rs (c_shape c) -> cont_dice junk c rs = Ok None) /\
  (forall ids v, c_shape c <> [] -> exists c', cont_trySet c ids v = Ok (bool_decide (inside ids (c_shape c)), c') /\ fresh c' /\ c_shape c' = c_shape c /\ forall ids', inside ids' (c_shape c) -> cont_get c' ids' = Ok (if bool_decide (ids' = ids) then v else f ids')).
Proof.
  intros Hc Hf Hj. split; [|split].
  - intros Hp. destruct (cont_dice_ok c rs junk f Hc Hf Hp Hj) as (c' & E & H1 & H2 & H3). exists c'. split; [done|]. split; [done|]. by apply fresh_shows.
  - apply cont_dice_none.
  - intros ids v Hn. destruct (cont_trySet_ok c ids v Hc Hn) as (c' & E & H1 & H2 & H3). exists c'. do 3 (split; [done|]). intros ids' Hi. rewrite H3 by done. destruct (decide (ids' = ids)) as [Hx|Hx]; [by rewrite !bool_decide_true by done|]. rewrite !bool_decide_false by done. by apply Hf.
Qed.
(** Reading or writing outside of a contiguous tensor gives nothing and changes nothing. *)
Theorem C68_contiguous_outside (c : cont V) ids v : ~ inside ids (c_shape c) -> cont_tryGet c ids = Ok None /\ cont_trySet c ids v = Ok (false, c).
Proof.
  intros Hi. unfold cont_tryGet, cont_trySet. destruct (length ids =? length (c_shape c)) eqn:El; cbn [negb orb]; [|done]. apply Nat.eqb_eq in El. destruct (all_below ids (c_shape c)) eqn:Eb.
  - exfalso. apply Hi. by apply all_below_iff.
  - destruct (c_shape c) as [|d ds]; [|done]. destruct ids; [|done]. done.
Qed.
(** A contiguous tensor made chunked has the same elements, and comparing the two says so. *)
Theorem C68_convert (c : cont V) f : fresh c -> cont_shows c f -> exists t, chunked_of_cont c = Ok t /\ good t /\ tracked t /\ complete t /\ t_shape t = c_shape c /\ shows t f.
Proof.
  intros Hc Hf. destruct (of_cont_ok c Hc) as (t & E & H1 & H2 & H3 & H4 & H5). exists t. do 5 (split; [done|]). apply shows_cell; [done|]. rewrite H4. intros ids Hi. rewrite H5 by done. destruct (cont_get_ok c ids Hc Hi) as (E1 & v & Hv & E2). rewrite (proj1 (Hf ids Hi)) in E1. symmetry in E1. by apply rd_inv in E1.
Qed.
Theorem C68_compare_elements (veq : V -> V -> bool) (c : cont V) t f g : (forall x y, veq x y = true <-> x = y) -> fresh c -> cont_shows c f -> good t -> tracked t -> t_shape t <> [] -> shows t g ->
  exists b, same_elems veq c t = Ok b /\ (b = true <-> c_shape c = t_shape t /\ complete t /\ forall ids, inside ids (t_shape t) -> f ids = g ids).
Proof. intros Hv Hc Hf Hg Ht Hn Hs. apply same_elems_ok; try done. unfold rank. by destruct (t_shape t). Qed.
(** Two contiguous tensors are equal for the code if they have the same shape and elements. *)
Theorem C68_contiguous_eq (veq : V -> V -> bool) (c d : cont V) f g : (forall x y, veq x y = true <-> x = y) -> fresh c -> fresh d -> cont_shows c f -> cont_shows d g ->
  exists b, cont_eq veq c d = Ok b /\ (b = true <-> c_shape c = c_shape d /\ forall ids, inside ids (c_shape c) -> f ids = g ids).
Proof.
  intros Hv Hc Hd Hf Hg. unfold cont_eq. case_bool_decide as E; [|exists false; split; [done|]; naive_solver]. pose proof Hc as (C1 & C2 & C3). pose proof Hd as (D1 & D2 & D3).
  destruct (mem_eq_ok veq Hv (count (c_shape c)) (c_data c) (c_data d) C3 ltac:(by rewrite D3, E)) as (r & -> & Hr). exists r. split; [done|]. rewrite Hr.
  assert (forall ids, inside ids (c_shape c) -> c_data c !! number (c_shape c) ids = Some (f ids) /\ c_data d !! number (c_shape c) ids = Some (g ids)) as Hl.
  { intros ids Hi. assert (inside ids (c_shape d)) as Hi' by (by rewrite <- E). pose proof (proj1 (cont_get_ok c ids Hc Hi)) as A. pose proof (proj1 (cont_get_ok d ids Hd Hi')) as B. rewrite (proj1 (Hf ids Hi)) in A. rewrite (proj1 (Hg ids Hi')) in B. symmetry in A, B. apply rd_inv in A, B. rewrite <- E in B. done. }
  split.
  - intros Heq. split; [done|]. intros ids Hi. destruct (Hl ids Hi) as [A B]. rewrite Heq in A. congruence.
  - intros [_ H]. apply list_eq. intros k. destruct (decide (k < count (c_shape c))) as [Hk|Hk]; [|rewrite !lookup_ge_None_2; [done|rewrite D3, <- E; lia|rewrite C3; lia]]. destruct (ids_of_spec _ k C1 Hk) as [I1 I2]. destruct (Hl _ I1) as [A B]. rewrite <- I2 in A, B. rewrite A, B. by rewrite H.
Qed.
(** Two chunked tensors are equal for the code if they have the same shapes, are complete and have the same elements - provided that no chunk reaches over the border. *)
Theorem C68_chunked_eq (veq : V -> V -> bool) t u f g : (forall x y, veq x y = true <-> x = y) -> good t -> tracked t -> good u -> tracked u -> t_shape t <> [] -> shows t f -> shows u g -> Forall2 (fun d c => d mod c = 0) (t_shape t) (t_chunk t) ->
  exists b, chunked_eq veq t u = Ok b /\ (b = true <-> t_shape t = t_shape u /\ t_chunk t = t_chunk u /\ complete t /\ complete u /\ forall ids, inside ids (t_shape t) -> f ids = g ids).
Proof.
  intros Hv Hg Ht Hg' Ht' Hn Hf Hh Hd. destruct (chunked_eq_ok veq t u Hv Hg Ht Hg' Ht') as (b & E & Hb); [unfold rank; by destruct (t_shape t)|]. exists b. split; [done|]. rewrite Hb. split.
  - intros (H1 & H2 & H3 & H4 & H5). do 4 (split; [done|]). by apply (data_eq t u).
  - intros (H1 & H2 & H3 & H4 & H5). do 4 (split; [done|]). by apply (data_eq t u f g).
Qed.
(** Slicing to a chunked tensor is right if for each dimension there is one new chunk, or the distance of the chunks in memory is the extent of a chunk
    (as always if there is one dimension). *)
Theorem C68_dice t rs chunk junk f : good t -> tracked t -> t_shape t <> [] -> shows t f -> proper_ranges rs (t_shape t) -> length chunk = length (t_shape t) -> positive chunk ->
  length junk = chunked_size (size_of <$> rs) chunk -> (forall ids, in_ranges ids rs -> present t (chunk_of t ids)) ->
  aligned (zip_with ceil (size_of <$> rs) chunk) (strides_from (count chunk) (zip_with ceil (size_of <$> rs) chunk)) chunk ->
  exists u, tryDice junk t rs chunk = Ok (Some u) /\ good u /\ tracked u /\ complete u /\ t_shape u = size_of <$> rs /\ t_chunk u = chunk /\ shows u (fun ids => f (shifted ids rs)).
Proof.
  intros Hg Ht Hn Hf Hp Hl Hc Hj Hpr Hal. destruct (dice_ok t rs chunk junk f Hg Ht ltac:(unfold rank; by destruct (t_shape t)) Hf Hp Hl Hc Hj Hpr Hal) as (u & E & H1 & H2 & H3 & H4 & H5 & H6). exists u. do 6 (split; [done|]). by apply shows_cell.
Qed.
Theorem C68_dice_one_dimension t r d c junk f : good t -> tracked t -> t_shape t = [d] -> shows t f -> fst r < snd r <= d -> 0 < c -> length junk = chunked_size [size_of r] [c] -> complete t ->
  exists u, tryDice junk t [r] [c] = Ok (Some u) /\ good u /\ tracked u /\ complete u /\ t_shape u = [size_of r] /\ t_chunk u = [c] /\ forall i, i < size_of r -> get u [i] = Ok (f [i + fst r]).
Proof.
  intros Hg Ht Es Hf Hr Hc Hj Hcp. assert (proper_ranges [r] (t_shape t)) as Hp by (rewrite Es; constructor; [done|constructor]).
  destruct (C68_dice t [r] [c] junk f Hg Ht) as (u & E & H1 & H2 & H3 & H4 & H5 & H6); try done.
  - by rewrite Es.
  - by rewrite Es.
  - constructor; [done|constructor].
  - intros ids Hi. apply Hcp, chunk_of_inside; [done|]. by apply (in_ranges_inside _ [r]).
  - constructor; [|constructor]. right. cbn. lia.
  - exists u. do 6 (split; [done|]). intros i Hi. apply (H6 [i]). rewrite H4. constructor; [done|constructor].
Qed.
(** Slicing whole chunks copies the right elements, but they are not announced: asking for any of them gives nothing. *)
Theorem C68_dice_chunks_refuted t rs junk : good t -> tracked t -> complete t -> t_shape t <> [] -> proper_ranges rs (t_cpd t) -> length junk = count (size_of <$> rs) * t_elems t ->
  exists u, tryDiceChunks junk t rs = Ok (Some u, t) /\ t_chunk u = t_chunk t /\ t_shape u = zip_with (fun r c => size_of r * c) rs (t_chunk t) /\
  forall ids, inside ids (t_shape u) -> tryGet u ids = Ok None /\
    let ids' := zip_with Nat.add ids (zip_with Nat.mul (fst <$> rs) (t_chunk t)) in inside ids' (t_shape t) -> get u ids = get t ids'.
Proof.
  intros Hg Ht Hc Hn Hp Hj. destruct (dice_chunks_ok t rs junk Hg Ht Hc ltac:(unfold rank; by destruct (t_shape t)) Hp Hj) as (u & E & H1 & H2 & H3 & H4 & H5 & H6). exists u. do 3 (split; [done|]). intros ids Hi. split.
  - apply tryGet_ok; [done|done|done| |].
    + unfold rank. rewrite H4, zip_with_length. rewrite (Forall2_length _ _ _ Hp), (proj2 (good_cpd t Hg)), (g_len _ Hg). unfold rank. destruct (t_shape t); [done|cbn; lia].
    + unfold present. rewrite H5. intros Hx. apply lookup_replicate in Hx as [? _]. done.
  - intros ids' Hi'. rewrite !get_ok by done. specialize (H6 ids Hi Hi'). unfold cell in H6. unfold rd. by rewrite H6.
Qed.

(** Removing the dimensions of extent 1 is undefined behaviour if there is one before the last dimension, otherwise the last one is removed if it has extent 1 and the elements stay. *)
Lemma reduce_short fuel : forall i (shape ss : list nat), length shape < i + fuel -> 0 < fuel -> reduce_loop fuel i shape ss = UB.
Proof.
  induction fuel as [|fuel IH]; intros i shape ss Hl Hf; [lia|]. cbn [reduce_loop]. destruct (shape !! i) as [d|] eqn:E; [|done]. apply lookup_lt_Some in E as E'. destruct (decide (fuel = 0)) as [->|Hn]; [lia|].
  destruct (d =? 1); apply IH; try lia. rewrite length_delete by done. lia.
Qed.
Lemma reduce_char fuel : forall i (shape ss : list nat), length shape = i + fuel ->
  ((exists k, i <= k /\ S k < length shape /\ shape !! k = Some 1) -> reduce_loop fuel i shape ss = UB) /\
  ((forall k, i <= k -> S k < length shape -> shape !! k <> Some 1) -> reduce_loop fuel i shape ss = Ok (if bool_decide (0 < fuel /\ shape !! (length shape - 1) = Some 1) then (delete (length shape - 1) shape, delete (length shape - 1) ss) else (shape, ss))).
Proof.
  induction fuel as [|fuel IH]; intros i shape ss Hl. { split; [intros (k & H1 & H2 & _); lia|]. intros _. rewrite bool_decide_false; [done|]. lia. }
  destruct (lookup_lt_is_Some_2 shape i ltac:(lia)) as [d Hd]. cbn [reduce_loop]. rewrite Hd. destruct (decide (fuel = 0)) as [->|Hf].
  - split; [intros (k & H1 & H2 & _); lia|]. intros _. replace (length shape - 1) with i by lia. cbn [reduce_loop]. destruct (Nat.eqb_spec d 1) as [->|Hne].
    + rewrite bool_decide_true by (split; [lia|done]). done.
    + rewrite bool_decide_false; [done|]. intros [_ H]. congruence.
  - destruct (Nat.eqb_spec d 1) as [->|Hne].
    + split; [intros _|intros H; destruct (H i ltac:(lia) ltac:(lia) Hd)]. apply reduce_short; [rewrite length_delete by done; lia|lia].
    + destruct (IH (S i) shape ss ltac:(lia)) as [I1 I2]. split.
      * intros (k & H1 & H2 & H3). apply I1. exists k. split; [|done]. destruct (decide (k = i)) as [->|]; [congruence|lia].
      * intros H. rewrite I2 by (intros k H1 H2; apply H; lia). rewrite (bool_decide_ext (0 < fuel /\ shape !! (length shape - 1) = Some 1) (0 < S fuel /\ shape !! (length shape - 1) = Some 1)); [done|]. split; intros [? ?]; split; (done || lia).
Qed.
Theorem C68_reduce_rank (c : cont V) f : fresh c -> cont_shows c f ->
  ((exists k, S k < length (c_shape c) /\ c_shape c !! k = Some 1) -> cont_reduce c = UB) /\
  ((forall k, S k < length (c_shape c) -> c_shape c !! k <> Some 1) -> exists c', cont_reduce c = Ok c' /\
    (last (c_shape c) <> Some 1 -> c' = c) /\ (forall sh, c_shape c = sh ++ [1] -> c_shape c' = sh /\ forall ids, inside ids sh -> cont_get c' ids = Ok (f (ids ++ [0])))).
Proof.
  intros Hc Hf. pose proof Hc as (C1 & C2 & C3). destruct (reduce_char (length (c_shape c)) 0 (c_shape c) (c_strides c) eq_refl) as [R1 R2]. unfold cont_reduce. split.
  - intros (k & H1 & H2). rewrite R1; [done|]. exists k. split; [lia|done].
  - intros H. rewrite R2 by (intros k _; apply H). cbn [obind]. case_bool_decide as Hb.
    + destruct Hb as [Hb1 Hb2]. eexists. split; [reflexivity|]. split.
      * intros Hl. destruct Hl. rewrite last_lookup. by replace (Nat.pred (length (c_shape c))) with (length (c_shape c) - 1) by lia.
      * intros sh Esh. assert (forall (l : list nat) x, delete (length (l ++ [x]) - 1) (l ++ [x]) = l) as Hdel. { intros l x. rewrite app_length. cbn. replace (length l + 1 - 1) with (length l) by lia. rewrite delete_take_drop, take_app, drop_ge by (rewrite app_length; cbn; lia). apply app_nil_r. }
        assert (strides (sh ++ [1]) = strides sh ++ [count sh]) as Hst. { unfold strides. enough (forall a, strides_from a (sh ++ [1]) = strides_from a sh ++ [a * count sh]) as K by (rewrite K; by rewrite Nat.mul_1_l). clear. induction sh as [|d sh IH]; intros a; [cbn; by rewrite Nat.mul_1_r|]. cbn. rewrite IH. unfold count. cbn. by rewrite Nat.mul_assoc. }
        cbn [c_shape]. rewrite Esh in *. rewrite Hdel. split; [done|]. rewrite C2, Hst. assert (length (sh ++ [1]) = length (strides sh ++ [count sh])) as Hlen by (rewrite !app_length; unfold strides; rewrite strides_length; done). rewrite Hlen, Hdel.
        apply Forall_app in C1 as [C1 _]. assert (count (sh ++ [1]) = count sh) as Hcnt. { clear. induction sh as [|d sh IH]; [done|]. unfold count in *. cbn. by rewrite IH. } rewrite Hcnt in C3.
        intros ids Hi. set (c' := mkC sh (strides sh) (c_data c)). assert (fresh c') as Hc' by done. rewrite (proj1 (cont_get_ok c' ids Hc' Hi)). cbn.
        assert (inside (ids ++ [0]) (c_shape c)) as Hi2. { rewrite Esh. apply Forall2_app; [done|]. constructor; [lia|constructor]. } pose proof (proj1 (cont_get_ok c (ids ++ [0]) Hc Hi2)) as A. rewrite (proj1 (Hf _ ltac:(done))) in A. rewrite A. unfold rd. f_equal. rewrite Esh.
        enough (number (sh ++ [1]) (ids ++ [0]) = number sh ids) as -> by done. clear -Hi. induction Hi as [|i d ids sh _ _ IH]; [done|]. cbn. by rewrite IH.
    + eexists. split; [reflexivity|]. split; [intros _; by destruct c|]. intros sh Esh. destruct Hb. rewrite Esh, app_length. cbn. split; [lia|]. replace (length sh + 1 - 1) with (length sh) by lia. rewrite lookup_app_r by lia. by rewrite Nat.sub_diag.
Qed.
End theorems.

(** Reversing the bytes of the elements writes behind the array, for every array. *)
Theorem C68_reverse_refuted size n bytes : 0 < size -> 0 < n -> length bytes = n * size -> reverse_array size n bytes = UB.
Proof.
  intros Hs Hn Hl. unfold reverse_array, for_up. replace (n - 0) with (S (n - 1)) by lia. rewrite forn_snoc.
  set (F := fun i b => let tmp := take size (drop (i * size) b) in forn (size - 0) 0 (fun j b => let* x := rd tmp j in wr b (i * size + size - j) x) b).
  destruct (forn_inv (fun _ b => length b = n * size) (n - 1) 0 F bytes) as (b & Eb & Lb); [done| |].
  - intros i b Hi Lb. unfold F. cbv zeta. destruct (forn_inv (fun _ b' => length b' = n * size) (size - 0) 0 (fun j b' => let* x := rd (take size (drop (i * size) b)) j in wr b' (i * size + size - j) x) b) as (b' & Eb' & Lb'); [done| |by exists b'].
    intros j b' Hj Lb'. destruct (rd_lt (take size (drop (i * size) b)) j) as (x & _ & ->); [rewrite take_length, drop_length; nia|]. cbn [obind]. rewrite wr_Ok by nia. eexists. split; [reflexivity|]. by rewrite insert_length.
  - rewrite Eb. cbn [obind]. cbn [Nat.add]. unfold F. cbv zeta. replace (size - 0) with (S (size - 1)) by lia. cbn [forn]. destruct (rd_lt (take size (drop ((n - 1) * size) b)) 0) as (x & _ & ->); [rewrite take_length, drop_length; nia|]. cbn [obind]. unfold wr. destruct (decide _) as [Hd|]; [nia|done].
Qed.

(** * Where tensors break the properties *)
(** Asking for an element outside of the tensor, which shall give nothing, is undefined behaviour if the chunk does not exist. *)
Theorem C67_outside_refuted (v : nat) : exists t ids, chunked_fill v [2; 2] [2; 2] = Ok t /\ length ids = 2 /\ ~ inside ids [2; 2] /\ tryGet t ids = UB.
Proof. eexists _, [0; 2]. split; [reflexivity|]. split; [done|]. split; [intros H; apply Forall2_cons in H as [_ H]; apply Forall2_cons in H as [H _]; lia|]. reflexivity. Qed.
(** Writing a chunk that is not there is accepted: it overwrites another chunk, or writes outside of the array. *)
Theorem C67_set_chunk_refuted (v w : nat) : exists t t', chunked_fill v [4; 4] [2; 2] = Ok t /\ ~ inside [2; 0] (t_cpd t) /\ trySetChunk t [2; 0] [w; w; w; w] = Ok (true, t') /\ tryGet t [0; 2] = Ok (Some v) /\ tryGet t' [0; 2] = Ok (Some w) /\
  trySetChunk t [0; 2] [w; w; w; w] = UB.
Proof. eexists _, _. split; [reflexivity|]. split; [intros H; apply Forall2_cons in H as [H _]; cbn in H; lia|]. repeat split; reflexivity. Qed.
(** A tensor without dimensions cannot be written with set (undefined behaviour), and a contiguous one not with trySet. *)
Theorem C67_scalar_refuted (v w : nat) : exists t, chunked_fill v [] [] = Ok t /\ get t [] = Ok v /\ set t [] w = UB /\ cont_trySet (mkC [] [] [v]) [] w = Ok (false, mkC [] [] [v]).
Proof. eexists. repeat split; reflexivity. Qed.
(** Making a chunked tensor from a matrix is undefined behaviour whatever the matrix is. *)
Theorem C68_from_matrix_refuted {V} nr nc cx cy (data : list V) : 0 < nc -> chunked_of_dense nr nc cx cy data = UB.
Proof. intros H. unfold chunked_of_dense. by destruct nc; [lia|]. Qed.
(** Slicing to a chunked tensor with more than one chunk: elements stay uninitialised. *)
Theorem C68_dice_refuted (a b : nat) : exists t, chunked_iota (fun i => i) [4; 4] [4; 4] (replicate 16 0) = Ok t /\ complete t /\
  exists u, tryDice (replicate 16 (S a)) t [(0, 4); (0, 4)] [2; 2] = Ok (Some u) /\ tryGet u [2; 0] = Ok (Some (S a)) /\ get t [2; 0] = Ok 2.
Proof.
  eexists. split; [vm_compute; reflexivity|]. split.
  - intros c Hc. cbn in Hc. inversion Hc as [|x ? c' ? H1 H2]; subst. inversion H2 as [|y ? c'' ? H3 H4]; subst. inversion H4; subst. assert (x = 0) as -> by lia. assert (y = 0) as -> by lia. reflexivity.
  - eexists. split; [vm_compute; reflexivity|]. split; vm_compute; reflexivity.
Qed.
(** Comparing chunked tensors also compares what no index belongs to. *)
Theorem C68_chunked_eq_refuted : exists t u : ct nat, chunked_iota (fun i => i) [3] [2] [7; 7; 7; 7] = Ok t /\ chunked_iota (fun i => i) [3] [2] [8; 8; 8; 8] = Ok u /\ (forall ids, inside ids [3] -> get t ids = get u ids) /\ chunked_eq Nat.eqb t u = Ok false.
Proof.
  eexists _, _. split; [vm_compute; reflexivity|]. split; [vm_compute; reflexivity|]. split; [|reflexivity]. intros ids Hi. inversion Hi as [|i ? ids' ? H1 H2]; subst. inversion H2; subst. destruct i as [|[|[|i]]]; [reflexivity..|lia].
Qed.
(** A tensor that is a view of some columns of a matrix: comparing it and making it chunked ignores that its rows are not adjacent. *)
Theorem C68_view_refuted : exists c d : cont nat, cont_of_dense 2 1 2 0 [1; 9; 2; 9] = Ok c /\ cont_of_dense 2 1 1 0 [1; 2] = Ok d /\ (forall ids, inside ids [1; 2] -> cont_get c ids = cont_get d ids) /\ cont_eq Nat.eqb c d = Ok false /\
  exists t, chunked_of_cont c = Ok t /\ cont_get c [0; 1] = Ok 2 /\ get t [0; 1] = Ok 9.
Proof.
  eexists _, _. split; [reflexivity|]. split; [reflexivity|]. split.
  - intros ids Hi. inversion Hi as [|i ? ids' ? H1 H2]; subst. inversion H2 as [|j ? ids'' ? H3 H4]; subst. inversion H4; subst. assert (i = 0) as -> by lia. destruct j as [|[|j]]; [reflexivity..|lia].
  - split; [reflexivity|]. eexists. repeat split; reflexivity.
Qed.

(** * Cases *)
Example tensor_history_case : exists t0 t, chunked_new [3; 5] [2; 2] false (replicate 24 0) = Ok t0 /\
  runs t0 [Set_ [2; 4] 5; SetChunk [0; 1] [1; 2; 3; 4]; Set_ [3; 0] 6; Set_ [1; 3] 7] = Ok ([true; true; false; true], t) /\
  tryGet t [2; 4] = Ok (Some 5) /\ tryGet t [0; 2] = Ok (Some 1) /\ tryGet t [1; 2] = Ok (Some 2) /\ tryGet t [0; 3] = Ok (Some 3) /\ tryGet t [1; 3] = Ok (Some 7) /\ tryGet t [0; 0] = Ok None /\
  Forall (legal [3; 5] [2; 2]) [Set_ [2; 4] 5; SetChunk [0; 1] [1; 2; 3; 4]; Set_ [3; 0] 6; Set_ [1; 3] 7].
Proof. eexists _, _. split; [vm_compute; reflexivity|]. split; [vm_compute; reflexivity|]. do 6 (split; [vm_compute; reflexivity|]). apply Forall_cons. split; [done|]. apply Forall_cons. split; [split; [repeat constructor|done]|]. by repeat constructor. Qed.
Example tensor_rechunk_case : exists t u, chunked_iota (fun i => i) [3; 4] [2; 3] (replicate 24 99) = Ok t /\ good t /\ tracked t /\ complete t /\ tryRechunk (replicate 16 77) t [2; 2] = Ok (true, u) /\ length (replicate 16 77) = chunked_size [3; 4] [2; 2] /\
  ((fun i => get u (ids_of (strides [3; 4]) i)) <$> seq 0 12) = Ok <$> seq 0 12.
Proof.
  destruct (iota_ok (fun i => i) [3; 4] [2; 3] (replicate 24 99)) as (t & E & H1 & H2 & _ & _ & H3 & _); [done|repeat constructor..|done|]. exists t. vm_compute in E. injection E as [= <-]. eexists. split; [vm_compute; reflexivity|]. do 3 (split; [done|]). split; [vm_compute; reflexivity|]. split; vm_compute; reflexivity.
Qed.
Example tensor_dice_case : exists t c, chunked_iota (fun i => i) [3; 4] [2; 3] (replicate 24 99) = Ok t /\ proper_ranges [(1, 3); (1, 4)] [3; 4] /\ dice_cont (replicate 6 0) t [(1, 3); (1, 4)] = Ok (Some c) /\ c_shape c = [2; 3] /\ c_data c = [4; 5; 7; 8; 10; 11] /\ chunks_for t [(1, 3); (1, 2)] = Some [[0; 0]; [1; 0]].
Proof. eexists _, _. split; [vm_compute; reflexivity|]. split; [repeat constructor; cbn; lia|]. split; [vm_compute; reflexivity|]. split; [vm_compute; reflexivity|]. split; vm_compute; reflexivity. Qed.
Example tensor_dice_chunked_case : aligned (zip_with ceil (size_of <$> [(1, 3); (0, 4)]) [2; 4]) (strides_from (count [2; 4]) (zip_with ceil (size_of <$> [(1, 3); (0, 4)]) [2; 4])) [2; 4] /\
  exists t u, chunked_iota (fun i => i) [3; 4] [2; 3] (replicate 24 99) = Ok t /\ tryDice (replicate 8 0) t [(1, 3); (0, 4)] [2; 4] = Ok (Some u) /\ tryGet u [1; 3] = Ok (Some 11).
Proof. split; [constructor; [by left|constructor; [by left|constructor]]|]. eexists _, _. split; [vm_compute; reflexivity|]. split; [vm_compute; reflexivity|]. vm_compute. reflexivity. Qed.
Example tensor_reduce_case : exists c, cont_reduce (mkC [2; 3; 1] (strides [2; 3; 1]) [1; 2; 3; 4; 5; 6]) = Ok c /\ c_shape c = [2; 3] /\ cont_get c [1; 2] = Ok 6.
Proof. eexists. repeat split; reflexivity. Qed.

Print Assumptions C67_create.
Print Assumptions C67_new.
Print Assumptions C67_history.
Print Assumptions C67_chunks_for.
Print Assumptions C67_chunks_in.
Print Assumptions C67_outside_refuted.
Print Assumptions C67_set_chunk_refuted.
Print Assumptions C67_scalar_refuted.
Print Assumptions C68_rechunk.
Print Assumptions C68_rechunk_flags_refuted.
Print Assumptions C68_dice_to_contiguous.
Print Assumptions C68_contiguous.
Print Assumptions C68_convert.
Print Assumptions C68_compare_elements.
Print Assumptions C68_contiguous_eq.
Print Assumptions C68_chunked_eq.
Print Assumptions C68_dice.
Print Assumptions C68_dice_one_dimension.
Print Assumptions C68_dice_chunks_refuted.
Print Assumptions C68_reduce_rank.
Print Assumptions C68_reverse_refuted.
Print Assumptions C68_from_matrix_refuted.
Print Assumptions C68_dice_refuted.
Print Assumptions C68_chunked_eq_refuted.
Print Assumptions C68_view_refuted.
Print Assumptions C68_contiguous_outside.
