(** C52: element-wise binary operations on dense and sparse matrices. *)
From stdpp Require Import base numbers sorting list list_numbers.
From Coq Require Import ZArith Lia.
From Verif Require Import CppBase Mem CSRModel CSRSpec CSRProofs CSRView SparseLoops SparseSpec SinkProofs SparseBuild CastModel CastProofs ReorgModel Reorg EwModel.
Local Open Scope nat_scope.

(** * Specification *)
(** The cell of an [n'] x [m'] matrix that is used for (r, c): the only row (column) is used for every row (column). *)
Definition bcast {V} (n' m' : nat) (y : nat -> nat -> V) (r c : nat) : V := y (if decide (n' = 1) then 0 else r) (if decide (m' = 1) then 0 else c).
(** Equal, where all representations of zero (0.0 and -0.0) count as equal. *)
Definition same {V} `{Val V} (a b : V) : Prop := a = b \/ (viszero a = true /\ viszero b = true).

(** * Dense *)
Section Dense.
  Context {A B V : Type} (junk : nat -> list V) (Hjunk : forall k, length (junk k) = k) (f : A -> B -> V).
  Lemma ew_loop_ok (a : dmat A) (b : dmat B) n m x (sr sc : bool) (g : nat -> nat -> B) : is_dense a n m x ->
    (forall r c, r < n -> c < m -> m_buf b !! (m_off b + (if sr then r * m_skip b else 0) + (if sc then c else 0)) = Some (g r c)) ->
    exists res, ew_loop junk f a b sr sc = Ok res /\ is_dense res n m (fun r c => f (x r c) (g r c)).
  Proof.
    intros (Hr & Hc & Hs & Hb & Hx) Hg. unfold ew_loop. cbv zeta. rewrite Hr, Hc.
    match goal with |- context [for2 n m ?F ?s] => destruct (for2_tabulate n m F (fun r c => f (x r c) (g r c)) s) as (b' & -> & Ht) end; [apply Hjunk| |].
    - intros r c b' Hr' Hc' _. rewrite (rd_Ok _ _ _ (Hx r c Hr' Hc')). cbn [obind]. by rewrite (rd_Ok _ _ _ (Hg r c Hr' Hc')).
    - cbn [obind]. eexists. split; [done|]. by apply tabulated_is_dense.
  Qed.
  Lemma ew_dense_ok (a : dmat A) (b : dmat B) n m n' m' x y : is_dense a n m x -> is_dense b n' m' y -> (n' = n /\ m' = m) \/ (n' = 1 /\ m' = m) \/ (n' = n /\ m' = 1) ->
    exists res, ew_dense junk f a b = Ok res /\ is_dense res n m (fun r c => f (x r c) (bcast n' m' y r c)).
  Proof.
    intros Ha (Hr' & Hc' & _ & _ & Hy) Hsh. pose proof Ha as (Hr & Hc & _). unfold ew_dense. rewrite Hr, Hc, Hr', Hc'.
    destruct (decide (n = n' /\ m = m')) as [[<- <-]|H1]; [|destruct (decide (m = m' /\ (n' = 1 \/ n = 1))) as [[<- H2]|H2]; [|destruct (decide (n = n' /\ (m' = 1 \/ m = 1))) as [[<- H3]|H3]; [|lia]]].
    - apply ew_loop_ok; [done|]. intros r c Hr0 Hc0. unfold bcast. rewrite Hy by done. f_equal. destruct (decide (n = 1)), (decide (m = 1)); f_equal; lia.
    - apply ew_loop_ok; [done|]. intros r c Hr0 Hc0. unfold bcast. assert (n' = 1) as -> by lia. specialize (Hy 0 c ltac:(lia) ltac:(lia)). cbn in Hy. rewrite Nat.add_0_r in Hy. rewrite Nat.add_0_r, Hy. f_equal. cbn. destruct (decide (m = 1)); f_equal; lia.
    - apply ew_loop_ok; [done|]. intros r c Hr0 Hc0. unfold bcast. assert (m' = 1) as -> by lia. rewrite Hy by lia. f_equal. cbn. destruct (decide (n = 1)); f_equal; lia.
  Qed.
  Lemma ew_sca_dense_ok (a : dmat A) y n m x : is_dense a n m x -> exists res, ew_sca_dense junk f a y = Ok res /\ is_dense res n m (fun r c => f (x r c) y).
  Proof.
    intros (Hr & Hc & Hs & Hb & Hx). unfold ew_sca_dense. cbv zeta. rewrite Hr, Hc.
    match goal with |- context [for2 n m ?F ?s] => destruct (for2_tabulate n m F (fun r c => f (x r c) y) s) as (b' & -> & Ht) end; [apply Hjunk| |].
    - intros r c b' Hr' Hc' _. by rewrite (rd_Ok _ _ _ (Hx r c Hr' Hc')).
    - cbn [obind]. eexists. split; [done|]. by apply tabulated_is_dense.
  Qed.
End Dense.

(** * Sparse *)
Section Sparse.
  Context {V : Type} `{Val V} (junk : nat -> list V) (Hjunk : junk_ok junk) (alloc : nat -> nat -> csrbuf V) (Halloc : alloc_ok alloc) (f : V -> V -> V).
  Implicit Types (b : csrbuf V) (h : csrh) (l : row V).
  Notation rows_fn := (rows_fn (V := V)).

  Lemma by_rows_ok n m cap (body : nat -> cst (V := V) -> outcome cst) (g : nat -> row V) :
    (forall r (s : cst (V := V)), r < n -> built cap n (rows_fn g r) [] s -> exists s', body r s = Ok s' /\ built cap n (rows_fn g r) (g r) s') ->
    (forall r, r < n -> row_ok m (g r)) ->
    exists b h, by_rows alloc n m cap body = Ok (b, h) /\ sparse_cells b h n m (fun r c => cell_in c (g r)).
  Proof.
    intros Hbody Hok. unfold by_rows. destruct (start_ok alloc Halloc n cap) as (s0 & -> & H0). cbn [obind].
    match goal with |- context [for_up 0 n ?F s0] => destruct (for_up_inv (fun r (s : cst (V := V)) => built cap n (rows_fn g r) [] s) 0 n F s0) as (s & -> & HB) end.
    - lia.
    - done.
    - intros r s Hr HB. destruct (Hbody r s ltac:(lia) HB) as (s' & -> & HB'). cbn [obind]. change (1 + r) with (S r). rewrite rows_fn_S. apply close_ok; [done|by rewrite rows_fn_length|lia].
    - cbn [obind]. destruct (done_ n m cap s) as [b h] eqn:Ed. exists b, h. split; [done|].
      replace b with (done_ n m cap s).1 by (by rewrite Ed). replace h with (done_ n m cap s).2 by (by rewrite Ed). eapply done_ok; [exact HB|apply rows_fn_length| |].
      + apply Forall_lookup_2. intros r l Hl. apply rows_fn_lookup in Hl as [Hr' ->]. by apply Hok.
      + intros r c l Hr' Hc' Hl. by apply rows_fn_lookup in Hl as [_ ->].
  Qed.

  (** Merging two rows. *)
  Definition kept (c : nat) (v : V) : row V := if viszero v then [] else [(c, v)].
  Fixpoint mrg (l1 : row V) : row V -> row V :=
    fix go (l2 : row V) : row V :=
    match l1, l2 with
    | [], _ => l2
    | _, [] => l1
    | (c1, v1) :: t1, (c2, v2) :: t2 =>
        if decide (c1 = c2) then kept c1 (f v1 v2) ++ mrg t1 t2
        else if decide (c1 < c2) then (c1, v1) :: mrg t1 l2
        else (c2, v2) :: go t2
    end.
  Lemma mrg_nil_l l2 : mrg [] l2 = l2. Proof. by destruct l2. Qed.
  Lemma mrg_nil_r l1 : mrg l1 [] = l1. Proof. by destruct l1 as [|[c v] l1]. Qed.
  Lemma mrg_cons c1 v1 t1 c2 v2 t2 : mrg ((c1, v1) :: t1) ((c2, v2) :: t2) =
    if decide (c1 = c2) then kept c1 (f v1 v2) ++ mrg t1 t2 else if decide (c1 < c2) then (c1, v1) :: mrg t1 ((c2, v2) :: t2) else (c2, v2) :: mrg ((c1, v1) :: t1) t2.
  Proof. done. Qed.
  Lemma mrg_ind (P : row V -> row V -> Prop) :
    (forall l2, P [] l2) -> (forall l1, P l1 []) ->
    (forall c v1 v2 t1 t2, P t1 t2 -> P ((c, v1) :: t1) ((c, v2) :: t2)) ->
    (forall c1 v1 t1 c2 v2 t2, c1 < c2 -> P t1 ((c2, v2) :: t2) -> P ((c1, v1) :: t1) ((c2, v2) :: t2)) ->
    (forall c1 v1 t1 c2 v2 t2, c2 < c1 -> P ((c1, v1) :: t1) t2 -> P ((c1, v1) :: t1) ((c2, v2) :: t2)) ->
    forall l1 l2, P l1 l2.
  Proof.
    intros H1 H2 H3 H4 H5. induction l1 as [|[c1 v1] t1 IH1]; [done|]. induction l2 as [|[c2 v2] t2 IH2]; [done|].
    destruct (decide (c1 = c2)) as [->|]; [by apply H3|]. destruct (decide (c1 < c2)); [by apply H4|]. apply H5; [lia|done].
  Qed.
  Definition below (k : nat) l : Prop := Forall (fun c => k < c) l.*1.
  Lemma below_mrg k : forall l1 l2, below k l1 -> below k l2 -> below k (mrg l1 l2).
  Proof.
    apply (mrg_ind (fun l1 l2 => below k l1 -> below k l2 -> below k (mrg l1 l2))); unfold below.
    - intros l2 _. by rewrite mrg_nil_l.
    - intros l1 Hl _. by rewrite mrg_nil_r.
    - intros c v1 v2 t1 t2 IH. rewrite mrg_cons, decide_True by done. rewrite !fmap_cons, !Forall_cons, fmap_app, Forall_app. intros [Hc H1] [_ H2]. split; [|auto]. unfold kept. destruct (viszero _); [constructor|by repeat constructor].
    - intros c1 v1 t1 c2 v2 t2 Hlt IH. rewrite mrg_cons, decide_False, decide_True by lia. rewrite (fmap_cons _ _ t1), (fmap_cons _ _ (mrg _ _)), !Forall_cons. intros [Hc H1] H2. split; [done|]. by apply IH.
    - intros c1 v1 t1 c2 v2 t2 Hlt IH. rewrite mrg_cons, decide_False, decide_False by lia. rewrite (fmap_cons _ _ t2), (fmap_cons _ _ (mrg _ _)), !Forall_cons. intros H1 [Hc H2]. split; [done|]. by apply IH.
  Qed.
  Lemma below_trans k k' l : k <= k' -> below k' l -> below k l.
  Proof. intros Hk Hb. unfold below in *. eapply Forall_impl; [exact Hb|]. intros; cbn in *; lia. Qed.
  Lemma below_find k l c : below k l -> c <= k -> find_col c l = None.
  Proof. intros Hb Hc. apply find_col_None. intros Hin. unfold below in Hb. rewrite Forall_forall in Hb. specialize (Hb _ Hin). cbn in Hb. lia. Qed.
  Lemma sorted_cons c v l : StronglySorted lt ((c, v) :: l).*1 <-> StronglySorted lt l.*1 /\ below c l.
  Proof. rewrite fmap_cons. split; [intros [H1 H2]%StronglySorted_inv; split; [exact H1|exact H2]|]. intros [H1 H2]. by constructor. Qed.
  Definition comb (o1 o2 : option V) : option V :=
    match o1, o2 with Some v1, Some v2 => if viszero (f v1 v2) then None else Some (f v1 v2) | Some v, None => Some v | None, o => o end.
  Lemma find_cons c c' v l : find_col c ((c', v) :: l) = if decide (c' = c) then Some v else find_col c l.
  Proof. done. Qed.
  Lemma mrg_ok : forall l1 l2, StronglySorted lt l1.*1 -> StronglySorted lt l2.*1 -> StronglySorted lt (mrg l1 l2).*1 /\ forall c, find_col c (mrg l1 l2) = comb (find_col c l1) (find_col c l2).
  Proof.
    apply (mrg_ind (fun l1 l2 => StronglySorted lt l1.*1 -> StronglySorted lt l2.*1 -> StronglySorted lt (mrg l1 l2).*1 /\ forall c, find_col c (mrg l1 l2) = comb (find_col c l1) (find_col c l2))).
    - intros l2 _ H2. rewrite mrg_nil_l. split; [done|]. intros c. by destruct (find_col c l2).
    - intros l1 H1 _. rewrite mrg_nil_r. split; [done|]. intros c. by destruct (find_col c l1).
    - intros c v1 v2 t1 t2 IH [H1 B1]%sorted_cons [H2 B2]%sorted_cons. destruct (IH H1 H2) as [IHs IHf]. rewrite mrg_cons, decide_True by done. pose proof (below_mrg c t1 t2 B1 B2) as Bm. unfold kept. destruct (viszero (f v1 v2)) eqn:Ez; cbn [app].
      + split; [done|]. intros c'. rewrite IHf, !find_cons. destruct (decide (c = c')) as [<-|]; [|done]. rewrite (below_find c t1), (below_find c t2) by (done || lia). cbn. by rewrite Ez.
      + split; [by apply sorted_cons|]. intros c'. rewrite !find_cons, IHf. destruct (decide (c = c')) as [<-|]; [|done]. cbn. by rewrite Ez.
    - intros c1 v1 t1 c2 v2 t2 Hlt IH [H1 B1]%sorted_cons H2. pose proof H2 as [H2' B2]%sorted_cons. destruct (IH H1 H2) as [IHs IHf]. rewrite mrg_cons, decide_False, decide_True by lia. assert (B2' : below c1 ((c2, v2) :: t2)). { unfold below. rewrite fmap_cons. constructor; [done|]. apply (below_trans c1 c2); [lia|done]. }
      split; [apply sorted_cons; split; [done|by apply below_mrg]|]. intros c'. rewrite (find_cons c' c1 v1 (mrg _ _)), (find_cons c' c1 v1 t1), IHf. destruct (decide (c1 = c')) as [<-|]; [|done]. by rewrite (below_find c1 _ c1 B2') by lia.
    - intros c1 v1 t1 c2 v2 t2 Hlt IH H1 [H2 B2]%sorted_cons. pose proof H1 as [H1' B1]%sorted_cons. destruct (IH H1 H2) as [IHs IHf]. rewrite mrg_cons, decide_False, decide_False by lia. assert (B1' : below c2 ((c1, v1) :: t1)). { unfold below. rewrite fmap_cons. constructor; [done|]. apply (below_trans c2 c1); [lia|done]. }
      split; [apply sorted_cons; split; [done|by apply below_mrg]|]. intros c'. rewrite (find_cons c' c2 v2 (mrg _ _)), (find_cons c' c2 v2 t2), IHf. destruct (decide (c2 = c')) as [<-|]; [|done]. by rewrite (below_find c2 _ c2 B1') by lia.
  Qed.
  Lemma mrg_len : forall l1 l2, length (mrg l1 l2) <= length l1 + length l2.
  Proof.
    apply (mrg_ind (fun l1 l2 => length (mrg l1 l2) <= length l1 + length l2)).
    - intros l2. by rewrite mrg_nil_l.
    - intros l1. rewrite mrg_nil_r. cbn; lia.
    - intros c v1 v2 t1 t2 IH. rewrite mrg_cons, decide_True by done. rewrite app_length. unfold kept. destruct (viszero _); cbn; lia.
    - intros c1 v1 t1 c2 v2 t2 Hlt IH. rewrite mrg_cons, decide_False, decide_True by lia. cbn [length] in *. lia.
    - intros c1 v1 t1 c2 v2 t2 Hlt IH. rewrite mrg_cons, decide_False, decide_False by lia. cbn [length] in *. lia.
  Qed.

  (** [l] is stored in [b] from position [a] on. *)
  Definition at_pos b (a : nat) l : Prop := forall i e, l !! i = Some e -> bcols b !! (a + i) = Some e.1 /\ bvals b !! (a + i) = Some e.2.
  Lemma at_pos_row b h base rs r l : csr_reads b h base rs -> rs !! r = Some l -> at_pos b (base + stored (take r rs)) l.
  Proof. intros HR Hl i e He. by apply (reads_entry _ _ _ _ _ _ _ _ HR Hl). Qed.
  Lemma at_pos_drop b a l p : at_pos b a l -> at_pos b (a + p) (drop p l).
  Proof. intros Ha i e He. rewrite lookup_drop in He. specialize (Ha _ _ He). by rewrite <- Nat.add_assoc. Qed.
  Lemma at_pos_len b a l : at_pos b a l -> length l = 0 \/ (a + length l <= length (bcols b) /\ a + length l <= length (bvals b)).
  Proof. intros Ha. destruct (decide (length l = 0)); [by left|right]. destruct (lookup_lt_is_Some_2 l (length l - 1) ltac:(lia)) as [e He]. destruct (Ha _ _ He) as [H1%lookup_lt_Some H2%lookup_lt_Some]. lia. Qed.

  Lemma merge_ok cap n (dn : list (row V)) b1 a1 l1 b2 a2 l2 : at_pos b1 a1 l1 -> at_pos b2 a2 l2 -> forall fuel p1 p2 cur (s : cst (V := V)),
    p1 <= length l1 -> p2 <= length l2 -> (length l1 - p1) + (length l2 - p2) <= fuel -> built cap n dn cur s -> stored dn + length cur + (length l1 - p1) + (length l2 - p2) <= cap ->
    exists q1 q2 cur' s', merge f fuel b1 a1 (length l1) b2 a2 (length l2) p1 p2 s = Ok (q1, q2, s') /\ q1 <= length l1 /\ q2 <= length l2 /\ (q1 = length l1 \/ q2 = length l2) /\ built cap n dn cur' s' /\
      stored dn + length cur' + (length l1 - q1) + (length l2 - q2) <= cap /\ cur ++ mrg (drop p1 l1) (drop p2 l2) = cur' ++ drop q1 l1 ++ drop q2 l2.
  Proof.
    intros HA1 HA2. induction fuel as [|fuel IH]; intros p1 p2 cur s Hp1 Hp2 Hf HB Hcap; cbn [merge].
    { rewrite decide_False by lia. exists p1, p2, cur, s. split; [done|]. split; [done|]. split; [done|]. split; [lia|]. split; [done|]. split; [done|]. rewrite !drop_ge by lia. done. }
    destruct (decide (p1 < length l1 /\ p2 < length l2)) as [[Hl1 Hl2]|Hend].
    - destruct (lookup_lt_is_Some_2 l1 p1 Hl1) as [[c1 v1] E1]. destruct (lookup_lt_is_Some_2 l2 p2 Hl2) as [[c2 v2] E2]. destruct (HA1 _ _ E1) as [C1 V1]. destruct (HA2 _ _ E2) as [C2 V2]. cbn [fst snd] in *.
      rewrite (rd_Ok _ _ _ C1). cbn [obind]. rewrite (rd_Ok _ _ _ C2). cbn [obind]. rewrite (drop_S l1 _ p1 E1), (drop_S l2 _ p2 E2), mrg_cons. replace (S p1) with (p1 + 1) by lia. replace (S p2) with (p2 + 1) by lia.
      destruct (decide (c1 = c2)) as [<-|Hne]; [|destruct (decide (c1 < c2)) as [Hlt|Hlt]].
      + rewrite (rd_Ok _ _ _ V1). cbn [obind]. rewrite (rd_Ok _ _ _ V2). cbn [obind]. unfold kept. destruct (viszero (f v1 v2)); cbn [obind app].
        * apply IH; [lia|lia|lia|done|lia].
        * destruct (put_ok cap n dn cur s c1 (f v1 v2) HB ltac:(lia)) as (s' & -> & HB'). cbn [obind]. destruct (IH (p1 + 1) (p2 + 1) (cur ++ [(c1, f v1 v2)]) s') as (q1 & q2 & cur' & s'' & E & R); [lia|lia|lia|done|rewrite app_length; cbn; lia|]. exists q1, q2, cur', s''. split; [done|]. rewrite <- app_assoc in R. exact R.
      + rewrite (rd_Ok _ _ _ V1). cbn [obind]. destruct (put_ok cap n dn cur s c1 v1 HB ltac:(lia)) as (s' & -> & HB'). cbn [obind]. destruct (IH (p1 + 1) p2 (cur ++ [(c1, v1)]) s') as (q1 & q2 & cur' & s'' & E & R); [lia|lia|lia|done|rewrite app_length; cbn; lia|]. exists q1, q2, cur', s''. split; [done|]. rewrite <- app_assoc in R. rewrite (drop_S l2 _ p2 E2) in R. replace (S p2) with (p2 + 1) in R by lia. exact R.
      + rewrite (rd_Ok _ _ _ V2). cbn [obind]. destruct (put_ok cap n dn cur s c2 v2 HB ltac:(lia)) as (s' & -> & HB'). cbn [obind]. destruct (IH p1 (p2 + 1) (cur ++ [(c2, v2)]) s') as (q1 & q2 & cur' & s'' & E & R); [lia|lia|lia|done|rewrite app_length; cbn; lia|]. exists q1, q2, cur', s''. split; [done|]. rewrite <- app_assoc in R. rewrite (drop_S l1 _ p1 E1) in R. replace (S p1) with (p1 + 1) in R by lia. exact R.
    - exists p1, p2, cur, s. split; [done|]. split; [done|]. split; [done|]. split; [lia|]. split; [done|]. split; [done|]. f_equal. destruct (decide (p1 = length l1)) as [->|]; [rewrite drop_all, mrg_nil_l; done|]. assert (p2 = length l2) as -> by lia. rewrite drop_all, mrg_nil_r. by rewrite app_nil_r.
  Qed.
  Lemma copy_here_ok cap n (dn : list (row V)) cur (s : cst (V := V)) b a l : at_pos b a l -> built cap n dn cur s -> stored dn + length cur + length l <= cap ->
    exists s', copy_here b a (length l) s = Ok s' /\ built cap n dn (cur ++ l) (advance (length l) s').
  Proof.
    intros Ha HB Hcap. destruct s as [[[ro cs] vs] pos]. destruct HB as (Hpos & Hc & Hv & Hr & He & Ho). unfold copy_here. pose proof (at_pos_len _ _ _ Ha) as Hlen.
    destruct (copy_range_spec' vs pos (bvals b) a (length l)) as (vs' & -> & L1 & V1 & V2); [lia|lia|]. cbn [obind]. destruct (copy_range_spec' cs pos (bcols b) a (length l)) as (cs' & -> & L2 & C1 & C2); [lia|lia|]. cbn [obind]. eexists. split; [done|].
    cbn. split; [rewrite app_length; lia|]. split; [lia|]. split; [lia|]. split; [done|]. split; [|done]. intros i e Hi. rewrite app_assoc in Hi. apply lookup_app_Some in Hi as [Hi|[Hge Hi]].
    - assert (i < pos). { apply lookup_lt_Some in Hi. rewrite app_length in Hi. unfold stored in Hpos. lia. } rewrite C2, V2 by lia. by apply He.
    - rewrite app_length in Hi, Hge. change (length (concat dn)) with (stored dn) in *. replace i with (pos + (i - (stored dn + length cur))) by lia. assert (Hil : i - (stored dn + length cur) < length l) by (by eapply lookup_lt_Some). rewrite C1, V1 by done. by apply Ha.
  Qed.
  Lemma copy_here_nil b a (s : cst (V := V)) : copy_here b a 0 s = Ok s.
  Proof. by destruct s as [[[ro cs] vs] pos]. Qed.
  Lemma advance_0 (s : cst (V := V)) : advance 0 s = s.
  Proof. destruct s as [[[ro cs] vs] pos]. cbn. by rewrite Nat.add_0_r. Qed.
  Lemma add_row_ok cap n (dn : list (row V)) b1 h1 base1 rs1 b2 h2 base2 rs2 r l1 l2 (s : cst (V := V)) : csr_reads b1 h1 base1 rs1 -> csr_reads b2 h2 base2 rs2 -> rs1 !! r = Some l1 -> rs2 !! r = Some l2 ->
    built cap n dn [] s -> stored dn + length l1 + length l2 <= cap -> exists s', add_row f b1 h1 b2 h2 r s = Ok s' /\ built cap n dn (mrg l1 l2) s'.
  Proof.
    intros R1 R2 E1 E2 HB Hcap. unfold add_row. rewrite (reads_row_nnz _ _ _ _ _ _ R1 E1), (reads_row_nnz _ _ _ _ _ _ R2 E2). cbn [obind]. destruct (reads_row _ _ _ _ _ _ R1 E1) as (_ & _ & -> & _). destruct (reads_row _ _ _ _ _ _ R2 E2) as (_ & _ & -> & _). cbn [obind].
    pose proof (at_pos_row _ _ _ _ _ _ R1 E1) as A1. pose proof (at_pos_row _ _ _ _ _ _ R2 E2) as A2. set (a1 := base1 + _) in *. set (a2 := base2 + _) in *.
    destruct (decide (length l1 <> 0 /\ length l2 <> 0)) as [Hb|Hb]; [|destruct (decide (length l1 <> 0)) as [H1|H1]; [|destruct (decide (length l2 <> 0)) as [H2|H2]]].
    - destruct (merge_ok cap n dn b1 a1 l1 b2 a2 l2 A1 A2 (length l1 + length l2) 0 0 [] s) as (q1 & q2 & cur & s' & -> & Hq1 & Hq2 & Hq & HB' & Hc' & Em); [lia|lia|lia|done|cbn; lia|]. cbn [obind]. rewrite !drop_0 in Em. cbn [app] in Em. rewrite Em.
      destruct Hq as [-> | ->].
      + rewrite Nat.sub_diag, copy_here_nil. cbn [obind]. pose proof (at_pos_drop _ _ _ q2 A2) as A2'. destruct (copy_here_ok cap n dn cur s' b2 (a2 + q2) (drop q2 l2) A2' HB') as (s2 & Ec & HB2); [rewrite drop_length; lia|]. rewrite drop_length in Ec, HB2. rewrite Ec. cbn [obind]. eexists. split; [done|]. rewrite drop_all. cbn. exact HB2.
      + rewrite Nat.sub_diag. pose proof (at_pos_drop _ _ _ q1 A1) as A1'. destruct (copy_here_ok cap n dn cur s' b1 (a1 + q1) (drop q1 l1) A1' HB') as (s2 & Ec & HB2); [rewrite drop_length; lia|]. rewrite drop_length in Ec, HB2. rewrite Ec. cbn [obind]. rewrite copy_here_nil. cbn [obind]. eexists. split; [done|]. rewrite drop_all, app_nil_r, Nat.add_0_r. exact HB2.
    - assert (length l2 = 0) as ->%nil_length_inv by lia. rewrite mrg_nil_r. destruct (copy_here_ok cap n dn [] s b1 a1 l1 A1 HB) as (s2 & -> & HB2); [cbn in *; lia|]. cbn [obind]. by eexists.
    - assert (length l1 = 0) as ->%nil_length_inv by lia. rewrite mrg_nil_l. destruct (copy_here_ok cap n dn [] s b2 a2 l2 A2 HB) as (s2 & -> & HB2); [cbn in *; lia|]. cbn [obind]. by eexists.
    - assert (length l1 = 0) as ->%nil_length_inv by lia. assert (length l2 = 0) as ->%nil_length_inv by lia. by eexists.
  Qed.
  Lemma same_refl (v : V) : same v v. Proof. by left. Qed.
  Lemma same_sym (v w : V) : same v w -> same w v. Proof. intros [-> | [H1 H2]]; [by left|by right]. Qed.
  Lemma stored_rows_fn (g : nat -> row V) (rs : list (row V)) (k : nat -> nat) r : r <= length rs -> (forall i l, rs !! i = Some l -> length (g i) <= length l) -> stored (rows_fn g r) <= stored (take r rs).
  Proof.
    intros Hr Hg. induction r as [|r IH]; [done|]. destruct (lookup_lt_is_Some_2 rs r ltac:(lia)) as [l Hl]. rewrite rows_fn_S, stored_app, (stored_take_S _ _ _ Hl). specialize (IH ltac:(lia)). unfold stored at 2. cbn. rewrite app_nil_r. specialize (Hg _ _ Hl). lia.
  Qed.
  Definition row_at (rs : list (row V)) (r : nat) : row V := default [] (rs !! r).
  Lemma cell_row_at (rs : list (row V)) r c : cell rs r c = cell_in c (row_at rs r).
  Proof. unfold cell, row_at. by destruct (rs !! r). Qed.
  Lemma find_bound m l c v : row_ok m l -> find_col c l = Some v -> c < m.
  Proof. intros [_ Hf] Hc%find_col_Some. rewrite Forall_forall in Hf. apply Hf. apply elem_of_list_fmap. by exists (c, v). Qed.
  Lemma bounded_find m l : StronglySorted lt l.*1 -> (forall c v, find_col c l = Some v -> c < m) -> row_ok m l.
  Proof. intros Hs Hc. split; [done|]. apply Forall_forall. intros c Hin. apply elem_of_list_fmap in Hin as ([c' v] & -> & Hin). cbn. apply (Hc c' v). by apply find_col_elem. Qed.

  Lemma ew_add_ok b1 h1 b2 h2 n m x y : viszero vzero = true -> (forall v, same (f vzero v) v) -> (forall v, same (f v vzero) v) -> sparse_cells b1 h1 n m x -> sparse_cells b2 h2 n m y ->
    exists b h z, ew_add alloc f b1 h1 b2 h2 = Ok (b, h) /\ sparse_cells b h n m z /\ forall r c, r < n -> c < m -> same (z r c) (f (x r c) (y r c)).
  Proof.
    intros Hz F1 F2 (rs1 & S1 & N1 & M1 & X1)%sparse_cells_cell (rs2 & S2 & N2 & M2 & X2)%sparse_cells_cell. destruct (shows_reads _ _ _ S1) as (base1 & R1 & _). destruct (shows_reads _ _ _ S2) as (base2 & R2 & _).
    unfold ew_add. rewrite decide_False by lia. rewrite (reads_nnz _ _ _ _ R1), (reads_nnz _ _ _ _ R2). cbn [obind]. rewrite N1, M1.
    pose proof (rd_rows _ _ _ _ R1) as L1. pose proof (rd_rows _ _ _ _ R2) as L2. rewrite N1 in L1. rewrite N2 in L2.
    assert (HG : forall r, r <= n -> stored (rows_fn (fun r => mrg (row_at rs1 r) (row_at rs2 r)) r) <= stored (take r rs1) + stored (take r rs2)).
    { intros r. induction r as [|r IH]; intros Hr; [done|]. destruct (lookup_lt_is_Some_2 rs1 r ltac:(lia)) as [l1 E1]. destruct (lookup_lt_is_Some_2 rs2 r ltac:(lia)) as [l2 E2]. rewrite rows_fn_S, stored_app, (stored_take_S _ _ _ E1), (stored_take_S _ _ _ E2). specialize (IH ltac:(lia)). replace (stored [_]) with (length (mrg l1 l2)). 2:{ unfold stored. cbn. rewrite app_nil_r. unfold row_at. by rewrite E1, E2. } pose proof (mrg_len l1 l2). lia. }
    destruct (by_rows_ok n m (stored rs1 + stored rs2) (add_row f b1 h1 b2 h2) (fun r => mrg (row_at rs1 r) (row_at rs2 r))) as (b & h & E & Hs).
    - intros r s Hr HB. destruct (lookup_lt_is_Some_2 rs1 r ltac:(lia)) as [l1 E1]. destruct (lookup_lt_is_Some_2 rs2 r ltac:(lia)) as [l2 E2]. assert (row_at rs1 r = l1) as -> by (unfold row_at; by rewrite E1). assert (row_at rs2 r = l2) as -> by (unfold row_at; by rewrite E2). eapply add_row_ok; [exact R1|exact R2|done|done|done|]. specialize (HG r ltac:(lia)). pose proof (stored_take_row _ _ _ E1). pose proof (stored_take_row _ _ _ E2). lia.
    - intros r Hr. destruct (lookup_lt_is_Some_2 rs1 r ltac:(lia)) as [l1 E1]. destruct (lookup_lt_is_Some_2 rs2 r ltac:(lia)) as [l2 E2]. assert (row_at rs1 r = l1) as -> by (unfold row_at; by rewrite E1). assert (row_at rs2 r = l2) as -> by (unfold row_at; by rewrite E2). destruct (reads_row _ _ _ _ _ _ R1 E1) as (_ & O1 & _). destruct (reads_row _ _ _ _ _ _ R2 E2) as (_ & O2 & _). rewrite M1 in O1. rewrite M2 in O2. destruct (mrg_ok l1 l2 (proj1 O1) (proj1 O2)) as [Hss Hf]. apply bounded_find; [done|]. intros c v. rewrite Hf. destruct (find_col c l1) as [v1|] eqn:D1; [intros _; by apply (find_bound m l1 c v1)|]. destruct (find_col c l2) as [v2|] eqn:D2; [intros _; by apply (find_bound m l2 c v2)|]. done.
    - eexists _, _, _. split; [exact E|]. split; [exact Hs|]. intros r c Hr Hc. cbn beta. rewrite <- X1, <- X2 by done. rewrite !cell_row_at. destruct (lookup_lt_is_Some_2 rs1 r ltac:(lia)) as [l1 E1]. destruct (lookup_lt_is_Some_2 rs2 r ltac:(lia)) as [l2 E2]. assert (row_at rs1 r = l1) as -> by (unfold row_at; by rewrite E1). assert (row_at rs2 r = l2) as -> by (unfold row_at; by rewrite E2). destruct (reads_row _ _ _ _ _ _ R1 E1) as (_ & O1 & _). destruct (reads_row _ _ _ _ _ _ R2 E2) as (_ & O2 & _). destruct (mrg_ok l1 l2 (proj1 O1) (proj1 O2)) as [Hss Hf]. rewrite !cell_in_find, Hf. destruct (find_col c l1) as [v1|], (find_col c l2) as [v2|]; cbn.
      + destruct (viszero (f v1 v2)) eqn:Ez; cbn; [right; split; [exact Hz|exact Ez]|by left].
      + apply same_sym, F2.
      + apply same_sym, F1.
      + apply same_sym, F1.
  Qed.

  (** Intersecting two rows. *)
  Fixpoint itx (l1 : row V) : row V -> row V :=
    fix go (l2 : row V) : row V :=
    match l1, l2 with
    | [], _ => []
    | _, [] => []
    | (c1, v1) :: t1, (c2, v2) :: t2 =>
        if decide (c1 = c2) then (c1, f v1 v2) :: itx t1 t2
        else if decide (c1 < c2) then itx t1 l2
        else go t2
    end.
  Lemma itx_nil_l l2 : itx [] l2 = []. Proof. by destruct l2. Qed.
  Lemma itx_nil_r l1 : itx l1 [] = []. Proof. by destruct l1 as [|[c v] l1]. Qed.
  Lemma itx_cons c1 v1 t1 c2 v2 t2 : itx ((c1, v1) :: t1) ((c2, v2) :: t2) =
    if decide (c1 = c2) then (c1, f v1 v2) :: itx t1 t2 else if decide (c1 < c2) then itx t1 ((c2, v2) :: t2) else itx ((c1, v1) :: t1) t2.
  Proof. done. Qed.
  Definition both (o1 o2 : option V) : option V := match o1, o2 with Some v1, Some v2 => Some (f v1 v2) | _, _ => None end.
  Lemma below_itx k : forall l1 l2, below k l1 -> below k l2 -> below k (itx l1 l2).
  Proof.
    apply (mrg_ind (fun l1 l2 => below k l1 -> below k l2 -> below k (itx l1 l2))); unfold below.
    - intros l2 _ _. rewrite itx_nil_l. constructor.
    - intros l1 _ _. rewrite itx_nil_r. constructor.
    - intros c v1 v2 t1 t2 IH. rewrite itx_cons, decide_True by done. rewrite !fmap_cons, !Forall_cons. intros [Hc H1] [_ H2]. split; [done|auto].
    - intros c1 v1 t1 c2 v2 t2 Hlt IH. rewrite itx_cons, decide_False, decide_True by lia. rewrite (fmap_cons _ _ t1), Forall_cons. intros [Hc H1] H2. by apply IH.
    - intros c1 v1 t1 c2 v2 t2 Hlt IH. rewrite itx_cons, decide_False, decide_False by lia. rewrite (fmap_cons _ _ t2), (Forall_cons _ _ (t2.*1)). intros H1 [Hc H2]. by apply IH.
  Qed.
  Lemma itx_ok : forall l1 l2, StronglySorted lt l1.*1 -> StronglySorted lt l2.*1 -> StronglySorted lt (itx l1 l2).*1 /\ forall c, find_col c (itx l1 l2) = both (find_col c l1) (find_col c l2).
  Proof.
    apply (mrg_ind (fun l1 l2 => StronglySorted lt l1.*1 -> StronglySorted lt l2.*1 -> StronglySorted lt (itx l1 l2).*1 /\ forall c, find_col c (itx l1 l2) = both (find_col c l1) (find_col c l2))).
    - intros l2 _ H2. rewrite itx_nil_l. split; [constructor|done].
    - intros l1 H1 _. rewrite itx_nil_r. split; [constructor|]. intros c. by destruct (find_col c l1).
    - intros c v1 v2 t1 t2 IH [H1 B1]%sorted_cons [H2 B2]%sorted_cons. destruct (IH H1 H2) as [IHs IHf]. rewrite itx_cons, decide_True by done. split; [apply sorted_cons; split; [done|by apply below_itx]|]. intros c'. rewrite !find_cons, IHf. by destruct (decide (c = c')).
    - intros c1 v1 t1 c2 v2 t2 Hlt IH [H1 B1]%sorted_cons H2. pose proof H2 as [H2' B2]%sorted_cons. destruct (IH H1 H2) as [IHs IHf]. rewrite itx_cons, decide_False, decide_True by lia. assert (B2' : below c1 ((c2, v2) :: t2)). { unfold below. rewrite fmap_cons. constructor; [done|]. apply (below_trans c1 c2); [lia|done]. }
      split; [done|]. intros c'. rewrite (find_cons c' c1 v1 t1), IHf. destruct (decide (c1 = c')) as [<-|]; [|done]. rewrite (below_find c1 _ c1 B2'), (below_find c1 t1) by (done || lia). done.
    - intros c1 v1 t1 c2 v2 t2 Hlt IH H1 [H2 B2]%sorted_cons. pose proof H1 as [H1' B1]%sorted_cons. destruct (IH H1 H2) as [IHs IHf]. rewrite itx_cons, decide_False, decide_False by lia. assert (B1' : below c2 ((c1, v1) :: t1)). { unfold below. rewrite fmap_cons. constructor; [done|]. apply (below_trans c2 c1); [lia|done]. }
      split; [done|]. intros c'. rewrite (find_cons c' c2 v2 t2), IHf. destruct (decide (c2 = c')) as [<-|]; [|done]. rewrite (below_find c2 _ c2 B1'), (below_find c2 t2) by (done || lia). done.
  Qed.
  Lemma itx_len : forall l1 l2, length (itx l1 l2) <= length l1 /\ length (itx l1 l2) <= length l2.
  Proof.
    apply (mrg_ind (fun l1 l2 => length (itx l1 l2) <= length l1 /\ length (itx l1 l2) <= length l2)).
    - intros l2. rewrite itx_nil_l. cbn. lia.
    - intros l1. rewrite itx_nil_r. cbn; lia.
    - intros c v1 v2 t1 t2 IH. rewrite itx_cons, decide_True by done. cbn [length]. lia.
    - intros c1 v1 t1 c2 v2 t2 Hlt IH. rewrite itx_cons, decide_False, decide_True by lia. cbn [length] in *. lia.
    - intros c1 v1 t1 c2 v2 t2 Hlt IH. rewrite itx_cons, decide_False, decide_False by lia. cbn [length] in *. lia.
  Qed.
  Lemma isect_ok cap n (dn : list (row V)) b1 a1 l1 b2 a2 l2 : at_pos b1 a1 l1 -> at_pos b2 a2 l2 -> forall fuel p1 p2 cur (s : cst (V := V)),
    p1 <= length l1 -> p2 <= length l2 -> (length l1 - p1) + (length l2 - p2) <= fuel -> built cap n dn cur s -> stored dn + length cur + min (length l1 - p1) (length l2 - p2) <= cap ->
    exists s', isect f fuel b1 a1 (length l1) b2 a2 (length l2) p1 p2 s = Ok s' /\ built cap n dn (cur ++ itx (drop p1 l1) (drop p2 l2)) s'.
  Proof.
    intros HA1 HA2. induction fuel as [|fuel IH]; intros p1 p2 cur s Hp1 Hp2 Hf HB Hcap; cbn [isect].
    { rewrite decide_False by lia. exists s. split; [done|]. rewrite !drop_ge by lia. rewrite itx_nil_l. by rewrite app_nil_r. }
    destruct (decide (p1 < length l1 /\ p2 < length l2)) as [[Hl1 Hl2]|Hend].
    - destruct (lookup_lt_is_Some_2 l1 p1 Hl1) as [[c1 v1] E1]. destruct (lookup_lt_is_Some_2 l2 p2 Hl2) as [[c2 v2] E2]. destruct (HA1 _ _ E1) as [C1 V1]. destruct (HA2 _ _ E2) as [C2 V2]. cbn [fst snd] in *.
      rewrite (rd_Ok _ _ _ C1). cbn [obind]. rewrite (rd_Ok _ _ _ C2). cbn [obind]. rewrite (drop_S l1 _ p1 E1), (drop_S l2 _ p2 E2), itx_cons. replace (S p1) with (p1 + 1) by lia. replace (S p2) with (p2 + 1) by lia.
      destruct (decide (c1 = c2)) as [<-|Hne]; [|destruct (decide (c1 < c2)) as [Hlt|Hlt]].
      + rewrite (rd_Ok _ _ _ V1). cbn [obind]. rewrite (rd_Ok _ _ _ V2). cbn [obind]. destruct (put_ok cap n dn cur s c1 (f v1 v2) HB ltac:(lia)) as (s' & -> & HB'). cbn [obind]. destruct (IH (p1 + 1) (p2 + 1) (cur ++ [(c1, f v1 v2)]) s') as (s'' & E & R); [lia|lia|lia|done|rewrite app_length; cbn; lia|]. exists s''. split; [done|]. rewrite <- app_assoc in R. exact R.
      + destruct (IH (p1 + 1) p2 cur s) as (s'' & E & R); [lia|lia|lia|done|lia|]. exists s''. split; [done|]. rewrite (drop_S l2 _ p2 E2) in R. replace (S p2) with (p2 + 1) in R by lia. exact R.
      + destruct (IH p1 (p2 + 1) cur s) as (s'' & E & R); [lia|lia|lia|done|lia|]. exists s''. split; [done|]. rewrite (drop_S l1 _ p1 E1) in R. replace (S p1) with (p1 + 1) in R by lia. exact R.
    - exists s. split; [done|]. destruct (decide (p1 = length l1)) as [->|]; [rewrite drop_all, itx_nil_l; by rewrite app_nil_r|]. assert (p2 = length l2) as -> by lia. rewrite drop_all, itx_nil_r. by rewrite app_nil_r.
  Qed.
  Lemma ew_mul_ok b1 h1 b2 h2 n m x y : viszero vzero = true -> (forall v w, viszero v = true \/ viszero w = true -> viszero (f v w) = true) -> sparse_cells b1 h1 n m x -> sparse_cells b2 h2 n m y ->
    exists b h z, ew_mul alloc f b1 h1 b2 h2 = Ok (b, h) /\ sparse_cells b h n m z /\ forall r c, r < n -> c < m -> same (z r c) (f (x r c) (y r c)).
  Proof.
    intros Hz F (rs1 & S1 & N1 & M1 & X1)%sparse_cells_cell (rs2 & S2 & N2 & M2 & X2)%sparse_cells_cell. destruct (shows_reads _ _ _ S1) as (base1 & R1 & _). destruct (shows_reads _ _ _ S2) as (base2 & R2 & _).
    unfold ew_mul. rewrite decide_False by lia. rewrite (reads_nnz _ _ _ _ R1), (reads_nnz _ _ _ _ R2). cbn [obind]. rewrite N1, M1.
    pose proof (rd_rows _ _ _ _ R1) as L1. pose proof (rd_rows _ _ _ _ R2) as L2. rewrite N1 in L1. rewrite N2 in L2.
    assert (HG : forall r, r <= n -> stored (rows_fn (fun r => itx (row_at rs1 r) (row_at rs2 r)) r) <= stored (take r rs1) /\ stored (rows_fn (fun r => itx (row_at rs1 r) (row_at rs2 r)) r) <= stored (take r rs2)).
    { intros r. induction r as [|r IH]; intros Hr; [done|]. destruct (lookup_lt_is_Some_2 rs1 r ltac:(lia)) as [l1 E1]. destruct (lookup_lt_is_Some_2 rs2 r ltac:(lia)) as [l2 E2]. rewrite rows_fn_S, stored_app, (stored_take_S _ _ _ E1), (stored_take_S _ _ _ E2). specialize (IH ltac:(lia)). replace (stored [_]) with (length (itx l1 l2)). 2:{ unfold stored. cbn. rewrite app_nil_r. unfold row_at. by rewrite E1, E2. } pose proof (itx_len l1 l2). lia. }
    destruct (by_rows_ok n m (min (stored rs1) (stored rs2)) (mul_row f b1 h1 b2 h2) (fun r => itx (row_at rs1 r) (row_at rs2 r))) as (b & h & E & Hs).
    - intros r s Hr HB. destruct (lookup_lt_is_Some_2 rs1 r ltac:(lia)) as [l1 E1]. destruct (lookup_lt_is_Some_2 rs2 r ltac:(lia)) as [l2 E2]. assert (row_at rs1 r = l1) as -> by (unfold row_at; by rewrite E1). assert (row_at rs2 r = l2) as -> by (unfold row_at; by rewrite E2). unfold mul_row. rewrite (reads_row_nnz _ _ _ _ _ _ R1 E1), (reads_row_nnz _ _ _ _ _ _ R2 E2). cbn [obind]. destruct (decide (length l1 <> 0 /\ length l2 <> 0)) as [Hb|Hb].
      + destruct (reads_row _ _ _ _ _ _ R1 E1) as (_ & _ & -> & _). destruct (reads_row _ _ _ _ _ _ R2 E2) as (_ & _ & -> & _). cbn [obind]. destruct (isect_ok (min (stored rs1) (stored rs2)) n (rows_fn (fun r => itx (row_at rs1 r) (row_at rs2 r)) r) b1 _ l1 b2 _ l2 (at_pos_row _ _ _ _ _ _ R1 E1) (at_pos_row _ _ _ _ _ _ R2 E2) (length l1 + length l2) 0 0 [] s) as (s' & E & HB'); [lia|lia|lia|exact HB| |].
        * specialize (HG r ltac:(lia)). pose proof (stored_take_row _ _ _ E1). pose proof (stored_take_row _ _ _ E2). cbn [length]. lia.
        * rewrite !drop_0 in HB'. by eexists.
      + exists s. split; [done|]. assert (Hn : itx l1 l2 = []); [|by rewrite Hn]. apply nil_length_inv. pose proof (itx_len l1 l2). lia.
    - intros r Hr. destruct (lookup_lt_is_Some_2 rs1 r ltac:(lia)) as [l1 E1]. destruct (lookup_lt_is_Some_2 rs2 r ltac:(lia)) as [l2 E2]. assert (row_at rs1 r = l1) as -> by (unfold row_at; by rewrite E1). assert (row_at rs2 r = l2) as -> by (unfold row_at; by rewrite E2). destruct (reads_row _ _ _ _ _ _ R1 E1) as (_ & O1 & _). destruct (reads_row _ _ _ _ _ _ R2 E2) as (_ & O2 & _). rewrite M1 in O1. destruct (itx_ok l1 l2 (proj1 O1) (proj1 O2)) as [Hss Hf]. apply bounded_find; [done|]. intros c v. rewrite Hf. destruct (find_col c l1) as [v1|] eqn:D1; [intros _; by apply (find_bound m l1 c v1)|]. done.
    - eexists _, _, _. split; [exact E|]. split; [exact Hs|]. intros r c Hr Hc. cbn beta. rewrite <- X1, <- X2 by done. rewrite !cell_row_at. destruct (lookup_lt_is_Some_2 rs1 r ltac:(lia)) as [l1 E1]. destruct (lookup_lt_is_Some_2 rs2 r ltac:(lia)) as [l2 E2]. assert (row_at rs1 r = l1) as -> by (unfold row_at; by rewrite E1). assert (row_at rs2 r = l2) as -> by (unfold row_at; by rewrite E2). destruct (reads_row _ _ _ _ _ _ R1 E1) as (_ & O1 & _). destruct (reads_row _ _ _ _ _ _ R2 E2) as (_ & O2 & _). destruct (itx_ok l1 l2 (proj1 O1) (proj1 O2)) as [Hss Hf]. rewrite !cell_in_find, Hf. destruct (find_col c l1) as [v1|], (find_col c l2) as [v2|]; cbn; [by left| | |]; (right; split; [done|]; apply F; auto).
  Qed.
  (** A row computed entry by entry. *)
  Definition emap (k : nat * V -> row V) l : row V := concat (k <$> l).
  Lemma emap_snoc k l e : emap k (l ++ [e]) = emap k l ++ k e.
  Proof. unfold emap. rewrite fmap_app, concat_app. cbn. by rewrite app_nil_r. Qed.
  Lemma emap_len k l : (forall e, length (k e) <= 1) -> length (emap k l) <= length l.
  Proof. intros Hk. unfold emap. induction l as [|e l IH]; [done|]. rewrite fmap_cons. cbn [concat length]. rewrite app_length. specialize (Hk e). lia. Qed.
  (** [k] drops an entry or changes its value. *)
  Lemma emap_ok (g : nat -> V -> option V) l : StronglySorted lt l.*1 ->
    let k := fun e : nat * V => match g e.1 e.2 with Some w => [(e.1, w)] | None => [] end in
    StronglySorted lt (emap k l).*1 /\ forall c, find_col c (emap k l) = (v ← find_col c l; g c v).
  Proof.
    intros Hs k. assert (Hb : forall j l', below j l' -> below j (emap k l')).
    { intros j l'. unfold below, emap. induction l' as [|[c v] l' IH]; [done|]. rewrite !fmap_cons. cbn [concat]. rewrite Forall_cons, fmap_app, Forall_app. intros [H1 H2]. split; [|auto]. unfold k. cbn [fst snd]. destruct (g c v); cbn; [by constructor|constructor]. }
    induction l as [|[c v] l IH]; [split; [constructor|done]|]. apply sorted_cons in Hs as [Hs B]. destruct (IH Hs) as [I1 I2]. unfold emap. rewrite fmap_cons. cbn [concat]. fold (emap k l). unfold k at 1 3. cbn [fst snd]. destruct (g c v) as [w|] eqn:Eg; cbn [app].
    - split; [apply sorted_cons; auto|]. intros c'. rewrite !find_cons, I2. destruct (decide (c = c')) as [<-|]; [|done]. cbn. by rewrite Eg.
    - split; [done|]. intros c'. rewrite find_cons, I2. destruct (decide (c = c')) as [<-|]; [|done]. rewrite (below_find c l c B) by lia. cbn. by rewrite Eg.
  Qed.
  Lemma emap_row_ok (g : nat -> V -> option V) m l : row_ok m l -> row_ok m (emap (fun e : nat * V => match g e.1 e.2 with Some w => [(e.1, w)] | None => [] end) l).
  Proof.
    intros Hl. destruct (emap_ok g l (proj1 Hl)) as [H1 H2]. apply bounded_find; [done|]. intros c v. rewrite H2. destruct (find_col c l) as [w|] eqn:E; [|done]. intros _. by apply (find_bound m l c w).
  Qed.
  Lemma emap_loop cap n (dn : list (row V)) (s : cst (V := V)) l (g : nat -> V -> option V) (F : nat * V -> cst (V := V) -> outcome cst) :
    (forall c v t, (c, v) ∈ l -> F (c, v) t = match g c v with Some w => put c w t | None => Ok t end) -> built cap n dn [] s -> stored dn + length l <= cap ->
    exists s', ofold F l s = Ok s' /\ built cap n dn (emap (fun e : nat * V => match g e.1 e.2 with Some w => [(e.1, w)] | None => [] end) l) s'.
  Proof.
    intros HF HB Hcap. set (k := fun e : nat * V => match g e.1 e.2 with Some w => [(e.1, w)] | None => [] end). assert (Hk : forall e, length (k e) <= 1) by (intros [c v]; unfold k; destruct (g _ _); cbn; lia).
    destruct (ofold_inv (fun pre (s : cst (V := V)) => built cap n dn (emap k pre) s) F l s) as (s' & E & HB'); [exact HB| |by eauto].
    intros pre [c v] post t El Hpre. rewrite HF by (rewrite El; apply elem_of_app; right; left). rewrite emap_snoc. unfold k at 2. cbn [fst snd]. destruct (g c v) as [w|]; [|rewrite app_nil_r; by eexists]. apply put_ok; [done|]. pose proof (emap_len k pre Hk) as Hl. rewrite El, app_length in Hcap. cbn in Hcap. lia.
  Qed.
  Lemma emap_stored (g : nat -> nat -> V -> option V) (rs : list (row V)) r : r <= length rs ->
    stored (rows_fn (fun r => emap (fun e : nat * V => match g r e.1 e.2 with Some w => [(e.1, w)] | None => [] end) (row_at rs r)) r) <= stored (take r rs).
  Proof.
    intros Hr. apply (stored_rows_fn _ rs (fun _ => 0)); [done|]. intros i l Hl. assert (row_at rs i = l) as -> by (unfold row_at; by rewrite Hl). apply emap_len. intros [c v]. destruct (g _ _ _); cbn; lia.
  Qed.
  (** All kernels of this form. *)
  Lemma emap_kernel b h base rs n m (g : nat -> nat -> V -> option V) (body : nat -> cst (V := V) -> outcome cst) : csr_reads b h base rs -> h_rows h = n -> h_cols h = m ->
    (forall r l s, rs !! r = Some l -> exists F, body r s = ofold F l s /\ forall c v t, (c, v) ∈ l -> F (c, v) t = match g r c v with Some w => put c w t | None => Ok t end) ->
    exists b' h', by_rows alloc n m (stored rs) body = Ok (b', h') /\ sparse_cells b' h' n m (fun r c => default vzero (v ← find_col c (row_at rs r); g r c v)).
  Proof.
    intros R N M Hbody. pose proof (rd_rows _ _ _ _ R) as L. rewrite N in L.
    destruct (by_rows_ok n m (stored rs) body (fun r => emap (fun e : nat * V => match g r e.1 e.2 with Some w => [(e.1, w)] | None => [] end) (row_at rs r))) as (b' & h' & E & Hs).
    - intros r s Hr HB. destruct (lookup_lt_is_Some_2 rs r ltac:(lia)) as [l El]. assert (El' : row_at rs r = l) by (unfold row_at; by rewrite El). rewrite El'. destruct (Hbody r l s El) as (F & -> & HF). apply emap_loop; [done|done|]. pose proof (emap_stored g rs r ltac:(lia)). pose proof (stored_take_row _ _ _ El). lia.
    - intros r Hr. destruct (lookup_lt_is_Some_2 rs r ltac:(lia)) as [l El]. assert (row_at rs r = l) as -> by (unfold row_at; by rewrite El). destruct (reads_row _ _ _ _ _ _ R El) as (_ & O & _). rewrite M in O. by apply emap_row_ok.
    - exists b', h'. split; [done|]. eapply sparse_cells_ext; [exact Hs|]. intros r c Hr Hc. cbn beta. destruct (lookup_lt_is_Some_2 rs r ltac:(lia)) as [l El]. assert (row_at rs r = l) as -> by (unfold row_at; by rewrite El). destruct (reads_row _ _ _ _ _ _ R El) as (_ & O & _). destruct (emap_ok (g r) l (proj1 O)) as [_ Hf]. by rewrite cell_in_find, Hf.
  Qed.

  Lemma ew_mul_dense_ok b h (d : dmat V) n m n' m' x y : viszero vzero = true -> (forall v w, viszero v = true \/ viszero w = true -> viszero (f v w) = true) -> sparse_cells b h n m x -> is_dense d n' m' y ->
    n' = n \/ n' = 1 -> m' = m \/ m' = 1 ->
    exists b' h' z, ew_mul_dense alloc f b h d = Ok (b', h') /\ sparse_cells b' h' n m z /\ forall r c, r < n -> c < m -> same (z r c) (f (x r c) (bcast n' m' y r c)).
  Proof.
    intros Hz F (rs & S & N & M & X)%sparse_cells_cell (Hr' & Hc' & _ & _ & Hy) Hn Hm. destruct (shows_reads _ _ _ S) as (base & R & _). unfold ew_mul_dense. rewrite N, M, Hr', Hc'. rewrite decide_False by lia. rewrite (reads_nnz _ _ _ _ R). cbn [obind].
    pose proof (rd_rows _ _ _ _ R) as L. rewrite N in L.
    destruct (emap_kernel b h base rs n m (fun r c v => if viszero (bcast n' m' y r c) then None else Some (f v (bcast n' m' y r c))) (mul_dense_row f b h d) R N M) as (b' & h' & E & Hs).
    - intros r l s El. assert (Hrn : r < n) by (apply lookup_lt_Some in El; lia). unfold mul_dense_row. rewrite (reads_row_nnz _ _ _ _ _ _ R El). cbn [obind]. destruct (reads_row _ _ _ _ _ _ R El) as (_ & [_ O] & -> & _). cbn [obind].
      exists (fun e s => if viszero (bcast n' m' y r e.1) then Ok s else put e.1 (f e.2 (bcast n' m' y r e.1)) s). split.
      + destruct (decide (length l <> 0)) as [H0|H0]; [|assert (length l = 0) as ->%nil_length_inv by lia; done]. apply (row_loop b h base rs r l _ _ s R El). intros i c v t Hci Hvi Hlt. rewrite (rd_Ok _ _ _ Hci). cbn [obind fst snd]. rewrite Hr', Hc'. rewrite M in Hlt. unfold bcast. erewrite rd_Ok by (apply Hy; [destruct (decide (n' = 1)); lia|destruct (decide (m' = 1)); lia]). cbn [obind]. rewrite (rd_Ok _ _ _ Hvi). cbn [obind]. reflexivity.
      + intros c v t _. cbn [fst snd]. by destruct (viszero (bcast n' m' y r c)).
    - eexists _, _, _. split; [exact E|]. split; [exact Hs|]. intros r c Hr Hc. cbn beta. rewrite <- X by done. rewrite cell_row_at, cell_in_find. destruct (find_col c (row_at rs r)) as [v|]; cbn.
      + destruct (viszero (bcast n' m' y r c)) eqn:Ez; cbn; [|by left]. right. split; [exact Hz|]. apply F. by right.
      + right. split; [exact Hz|]. apply F. by left.
  Qed.
  Lemma ofold_nil {A St} (F : A -> St -> outcome St) s : ofold F [] s = Ok s. Proof. done. Qed.
  (** Zero if it counts as zero. *)
  Lemma nz_same v : viszero vzero = true -> same (nz v) v.
  Proof. intros Hz. unfold nz. destruct (viszero v) eqn:E; [by right|by left]. Qed.
  (** The loop over all columns of a row. *)
  Definition full_row (y : V) m l : row V := concat ((fun c => kept c (f (cell_in c l) y)) <$> seq 0 m).
  Lemma full_row_S y m l : full_row y (S m) l = full_row y m l ++ kept m (f (cell_in m l) y).
  Proof. unfold full_row. rewrite seq_S, fmap_app, concat_app. cbn. by rewrite app_nil_r. Qed.
  Lemma full_row_len y m l : length (full_row y m l) <= m.
  Proof. induction m as [|m IH]; [done|]. rewrite full_row_S, app_length. unfold kept. destruct (viszero _); cbn; lia. Qed.
  Lemma full_row_ok y m l : row_ok m (full_row y m l) /\ forall c, c < m -> cell_in c (full_row y m l) = nz (f (cell_in c l) y).
  Proof.
    assert (Hf : forall c, find_col c (full_row y m l) = if decide (c < m) then (if viszero (f (cell_in c l) y) then None else Some (f (cell_in c l) y)) else None).
    { intros c. induction m as [|m IH]; [done|]. rewrite full_row_S. assert (Hap : forall k k' : row V, find_col c (k ++ k') = match find_col c k with Some v => Some v | None => find_col c k' end). { clear. intros k k'. induction k as [|[c' v] k IH]; [done|]. cbn [app]. rewrite !find_cons. by destruct (decide (c' = c)). }
      rewrite Hap, IH. unfold kept. destruct (decide (c < m)) as [Hlt|Hge].
      - rewrite decide_True by lia. destruct (viszero (f (cell_in c l) y)) eqn:Ez; [|done]. destruct (viszero (f (cell_in m l) y)); [done|]. rewrite find_cons, decide_False by lia. done.
      - destruct (decide (c = m)) as [->|].
        + rewrite decide_True by lia. destruct (viszero (f (cell_in m l) y)); [done|]. by rewrite find_cons, decide_True.
        + rewrite decide_False by lia. destruct (viszero (f (cell_in m l) y)); [done|]. by rewrite find_cons, decide_False by lia. }
    split.
    - apply bounded_find; [|intros c v; rewrite Hf; by destruct (decide (c < m))]. clear Hf. assert (Hb : Forall (fun c => c < m) (full_row y m l).*1). { induction m as [|m IH]; [constructor|]. rewrite full_row_S, fmap_app, Forall_app. split; [eapply Forall_impl; [exact IH|]; intros; cbn in *; lia|]. unfold kept. destruct (viszero _); [constructor|]. repeat constructor; cbn; lia. }
      induction m as [|m IH]; [constructor|]. rewrite full_row_S, fmap_app. assert (Hb' : Forall (fun c => c < m) (full_row y m l).*1). { clear IH Hb. induction m as [|m IH]; [constructor|]. rewrite full_row_S, fmap_app, Forall_app. split; [eapply Forall_impl; [exact IH|]; intros; cbn in *; lia|]. unfold kept. destruct (viszero _); [constructor|]. repeat constructor; cbn; lia. }
      specialize (IH Hb'). unfold kept. destruct (viszero _); [cbn; by rewrite app_nil_r|]. apply ss_app. split; [done|]. split; [repeat constructor|]. eapply Forall_impl; [exact Hb'|]. intros c Hc. cbn in *. by repeat constructor.
    - intros c Hc. rewrite cell_in_find, Hf, decide_True by done. unfold nz. by destruct (viszero _).
  Qed.
  Lemma row_full_ok cap n (dn : list (row V)) b h base rs r l y (s : cst (V := V)) : csr_reads b h base rs -> rs !! r = Some l -> built cap n dn [] s -> stored dn + h_cols h <= cap ->
    exists s', sca_row_full f b h y r s = Ok s' /\ built cap n dn (full_row y (h_cols h) l) s'.
  Proof.
    intros R El HB Hcap. unfold sca_row_full. destruct (reads_row _ _ _ _ _ _ R El) as (_ & [O1 O2] & E1 & E2). rewrite E1. cbn [obind]. rewrite E2. cbn [obind]. pose proof (at_pos_row _ _ _ _ _ _ R El) as A. set (a := base + stored (take r rs)) in *. set (m := h_cols h) in *.
    match goal with |- context [for_up 0 m ?F ?s0] => destruct (for_up_inv (fun c (t : nat * cst (V := V)) => exists p, t.1 = a + p /\ p <= length l /\ Forall (fun c' => c' < c) (take p l).*1 /\ Forall (fun c' => c <= c') (drop p l).*1 /\ built cap n dn (full_row y c l) t.2) 0 m F s0) as (t & -> & HI) end.
    - lia.
    - exists 0. cbn [fst snd]. split; [lia|]. split; [lia|]. split; [constructor|]. split; [apply Forall_forall; lia|exact HB].
    - intros c [i t] Hc (p & Hi & Hp & F1 & F2 & HB'). cbn [fst snd] in *. subst i. change (1 + c) with (S c). rewrite full_row_S. destruct (decide (p < length l)) as [Hlt|Hge].
      + rewrite decide_True by lia. destruct (lookup_lt_is_Some_2 l p Hlt) as [[c' v] Ep]. destruct (A _ _ Ep) as [C1 V1]. cbn [fst snd] in *. rewrite (rd_Ok _ _ _ C1). cbn [obind]. rewrite (drop_S l _ p Ep), fmap_cons, Forall_cons in F2. cbn [fst] in F2. destruct F2 as [Hle F2].
        assert (Bd : below c' (drop (S p) l)). { rewrite <- (take_drop p l), (drop_S l _ p Ep), fmap_app, fmap_cons in O1. apply ss_app in O1 as (_ & O1 & _). by apply StronglySorted_inv in O1 as [_ O1]. }
        destruct (decide (c' = c)) as [->|Hne].
        * rewrite bool_decide_eq_true_2 by done. rewrite (rd_Ok _ _ _ V1). cbn [obind]. assert (Ec : cell_in c l = v). { apply cell_in_elem; [done|]. by apply (elem_of_list_lookup_2 l p). } rewrite Ec. unfold kept.
          assert (Hnext : S p <= length l /\ Forall (fun c' => c' < S c) (take (S p) l).*1 /\ Forall (fun c' => S c <= c') (drop (S p) l).*1). { split; [lia|]. rewrite (take_S_r _ _ _ Ep), fmap_app, Forall_app. split; [split; [eapply Forall_impl; [exact F1|]; intros; cbn in *; lia|repeat constructor; cbn; lia]|]. eapply Forall_impl; [exact Bd|]. intros; cbn in *; lia. }
          destruct (viszero (f v y)) eqn:Ez; cbn [obind app].
          -- eexists. split; [done|]. exists (S p). cbn [fst snd]. split; [lia|]. rewrite app_nil_r. tauto.
          -- destruct (put_ok cap n dn _ t c (f v y) HB') as (t' & -> & HB2); [pose proof (full_row_len y c l); lia|]. cbn [obind]. eexists. split; [done|]. exists (S p). cbn [fst snd]. split; [lia|]. tauto.
        * rewrite bool_decide_eq_false_2 by done. cbn [obind]. assert (Ec : cell_in c l = vzero). { apply cell_in_not. intros w Hw. apply elem_of_list_lookup in Hw as [j Hj]. rewrite <- (take_drop p l) in Hj. apply lookup_app_Some in Hj as [Hj|[_ Hj]]; apply elem_of_list_lookup_2 in Hj; apply (elem_of_list_fmap_1 fst) in Hj; cbn in Hj.
            - rewrite Forall_forall in F1. specialize (F1 _ Hj). lia.
            - rewrite (drop_S l _ p Ep), fmap_cons in Hj. apply elem_of_cons in Hj as [Hj|Hj]; [cbn in Hj; lia|]. unfold below in Bd. rewrite Forall_forall in Bd. specialize (Bd _ Hj). cbn in Bd. lia. }
          rewrite Ec. unfold kept.
          assert (Hnext : p <= length l /\ Forall (fun c' => c' < S c) (take p l).*1 /\ Forall (fun c' => S c <= c') (drop p l).*1). { split; [lia|]. split; [eapply Forall_impl; [exact F1|]; intros; cbn in *; lia|]. rewrite (drop_S l _ p Ep), fmap_cons, Forall_cons. cbn. split; [lia|]. eapply Forall_impl; [exact Bd|]. intros; cbn in *; lia. }
          destruct (viszero (f vzero y)) eqn:Ez; cbn [obind app].
          -- eexists. split; [done|]. exists p. cbn [fst snd]. split; [lia|]. rewrite app_nil_r. tauto.
          -- destruct (put_ok cap n dn _ t c (f vzero y) HB') as (t' & -> & HB2); [pose proof (full_row_len y c l); lia|]. cbn [obind]. eexists. split; [done|]. exists p. cbn [fst snd]. split; [lia|]. tauto.
      + rewrite decide_False by lia. cbn [obind]. assert (Ec : cell_in c l = vzero). { apply cell_in_not. intros w Hw. apply (elem_of_list_fmap_1 fst) in Hw. cbn in Hw. rewrite take_ge in F1 by lia. rewrite Forall_forall in F1. specialize (F1 _ Hw). lia. }
        rewrite Ec. unfold kept.
        assert (Hnext : p <= length l /\ Forall (fun c' => c' < S c) (take p l).*1 /\ Forall (fun c' => S c <= c') (drop p l).*1). { split; [lia|]. split; [eapply Forall_impl; [exact F1|]; intros; cbn in *; lia|]. rewrite drop_ge by lia. constructor. }
        destruct (viszero (f vzero y)) eqn:Ez; cbn [obind app].
        * eexists. split; [done|]. exists p. cbn [fst snd]. split; [lia|]. rewrite app_nil_r. tauto.
        * destruct (put_ok cap n dn _ t c (f vzero y) HB') as (t' & -> & HB2); [pose proof (full_row_len y c l); lia|]. cbn [obind]. eexists. split; [done|]. exists p. cbn [fst snd]. split; [lia|]. tauto.
    - cbn [obind]. destruct HI as (p & _ & _ & _ & _ & HB'). by eexists.
  Qed.
  Lemma ew_sca_csr_ok b h n m x y : viszero vzero = true -> sparse_cells b h n m x ->
    exists b' h' z, ew_sca_csr alloc f b h y = Ok (b', h') /\ sparse_cells b' h' n m z /\ forall r c, r < n -> c < m -> same (z r c) (f (x r c) y).
  Proof.
    intros Hz (rs & S & N & M & X)%sparse_cells_cell. destruct (shows_reads _ _ _ S) as (base & R & _). unfold ew_sca_csr. rewrite (reads_nnz _ _ _ _ R). cbn [obind]. rewrite N, M. pose proof (rd_rows _ _ _ _ R) as L. rewrite N in L. destruct (viszero (f vzero y)) eqn:Ep.
    - destruct (emap_kernel b h base rs n m (fun r c v => if viszero (f v y) then None else Some (f v y)) (sca_row_pres f b h y) R N M) as (b' & h' & E & Hs).
      + intros r l s El. unfold sca_row_pres. destruct (reads_row _ _ _ _ _ _ R El) as (_ & [_ O] & -> & ->). cbn [obind]. exists (fun e s => if viszero (f e.2 y) then Ok s else put e.1 (f e.2 y) s). split.
        * rewrite <- for_up_0. replace (_ - _) with (length l) by lia. apply (row_loop b h base rs r l _ _ s R El). intros i c v t Hci Hvi Hlt. rewrite (rd_Ok _ _ _ Hvi). cbn [obind fst snd]. destruct (viszero (f v y)); [done|]. by rewrite (rd_Ok _ _ _ Hci).
        * intros c v t _. cbn [fst snd]. by destruct (viszero (f v y)).
      + eexists _, _, _. split; [exact E|]. split; [exact Hs|]. intros r c Hr Hc. cbn beta. rewrite <- X by done. rewrite cell_row_at, cell_in_find. destruct (find_col c (row_at rs r)) as [v|]; cbn.
        * destruct (viszero (f v y)) eqn:Ez; cbn; [by right|by left].
        * by right.
    - destruct (by_rows_ok n m (n * m) (sca_row_full f b h y) (fun r => full_row y m (row_at rs r))) as (b' & h' & E & Hs).
      + intros r s Hr HB. destruct (lookup_lt_is_Some_2 rs r ltac:(lia)) as [l El]. assert (El' : row_at rs r = l) by (unfold row_at; by rewrite El). rewrite El'. rewrite <- M. eapply row_full_ok; [exact R|done|by rewrite M|]. rewrite M. assert (Hst : forall k, stored (rows_fn (fun r => full_row y m (row_at rs r)) k) <= k * m). { intros k. apply (rows_fn_stored _ k (fun _ => m) (fun k => k * m)); [intros r' _; apply full_row_len|done|intros; lia]. } specialize (Hst r). nia.
      + intros r Hr. by apply full_row_ok.
      + eexists _, _, _. split; [exact E|]. split; [exact Hs|]. intros r c Hr Hc. cbn beta. rewrite <- X by done. rewrite cell_row_at. destruct (full_row_ok y m (row_at rs r)) as [_ Hf]. rewrite Hf by done. by apply nz_same.
  Qed.

  (** Dense results. *)
  Lemma row_write n m (bf : list V) r l (g : nat -> V -> V) : length bf = n * m -> r < n -> row_ok m l ->
    exists bf', ofold (fun e bf => wr bf (r * m + e.1) (g e.1 e.2)) l bf = Ok bf' /\ length bf' = n * m /\ (forall j, ~ (r * m <= j < r * m + m) -> bf' !! j = bf !! j) /\
      forall c, c < m -> bf' !! (r * m + c) = match find_col c l with Some v => Some (g c v) | None => bf !! (r * m + c) end.
  Proof.
    intros Hl Hr [Hs Hb].
    destruct (ofold_inv (fun pre (bf' : list V) => length bf' = n * m /\ (forall j, ~ (r * m <= j < r * m + m) -> bf' !! j = bf !! j) /\ forall c, c < m -> (forall v, (c, v) ∈ pre -> bf' !! (r * m + c) = Some (g c v)) /\ (c ∉ pre.*1 -> bf' !! (r * m + c) = bf !! (r * m + c)))
      (fun e bf => wr bf (r * m + e.1) (g e.1 e.2)) l bf) as (bf' & E & Hl' & H1 & H2).
    - split; [done|]. split; [done|]. intros c Hc. split; [intros v Hv; by apply elem_of_nil in Hv|done].
    - intros pre [c v] post t El (Ht & T1 & T2). cbn [fst snd]. assert (Hcm : c < m). { rewrite Forall_forall in Hb. apply Hb. rewrite El, fmap_app, fmap_cons. apply elem_of_app. right. left. }
      rewrite wr_Ok by nia. eexists. split; [done|]. rewrite insert_length. split; [done|]. split; [intros j Hj; rewrite list_lookup_insert_ne by lia; by apply T1|]. intros c' Hc'. rewrite fmap_app. destruct (decide (c' = c)) as [->|Hne].
      + rewrite list_lookup_insert by nia. split; [|intros Hn; exfalso; apply Hn; apply elem_of_app; right; left]. intros w Hw. apply elem_of_app in Hw as [Hw|Hw].
        * exfalso. rewrite El, fmap_app, fmap_cons in Hs. apply ss_app in Hs as (_ & _ & Hs). rewrite Forall_forall in Hs. specialize (Hs c (elem_of_list_fmap_1 fst _ _ Hw)). apply Forall_cons in Hs as [Hs _]. cbn in Hs. lia.
        * apply elem_of_list_singleton in Hw. by injection Hw as ->.
      + rewrite list_lookup_insert_ne by lia. destruct (T2 c' Hc') as [T3 T4]. split.
        * intros w Hw. apply elem_of_app in Hw as [Hw|Hw]; [by apply T3|]. apply elem_of_list_singleton in Hw. injection Hw as -> _. done.
        * intros Hn. apply T4. intros Hx. apply Hn. apply elem_of_app. by left.
    - exists bf'. split; [done|]. split; [done|]. split; [done|]. intros c Hc. destruct (H2 c Hc) as [H3 H4]. destruct (find_col c l) as [v|] eqn:Ef; [apply H3; by apply find_col_Some|]. apply H4. by apply find_col_None.
  Qed.
  Lemma ew_csr_dense_ok one b h (d : dmat V) n m x y : viszero vzero = true -> (viszero (f vzero one) = true -> forall r c, r < n -> c < m -> viszero (f vzero (y r c)) = true) -> sparse_cells b h n m x -> is_dense d n m y ->
    exists res z, ew_csr_dense junk f one b h d = Ok res /\ is_dense res n m z /\ forall r c, r < n -> c < m -> same (z r c) (f (x r c) (y r c)).
  Proof.
    intros Hz Hp (rs & S & N & M & X)%sparse_cells_cell (Hr' & Hc' & _ & _ & Hy). destruct (shows_reads _ _ _ S) as (base & R & _). unfold ew_csr_dense. cbv zeta. rewrite N, M, Hr', Hc'. rewrite decide_False by lia. pose proof (rd_rows _ _ _ _ R) as L. rewrite N in L.
    set (pres := viszero (f vzero one)) in *. set (z := fun r c => match find_col c (row_at rs r) with Some v => f v (y r c) | None => if pres then vzero else f vzero (y r c) end).
    match goal with |- context [for_up 0 n ?F ?s0] => destruct (for_up_inv (fun i (bf : list V) => length bf = n * m /\ (forall r c, r < i -> c < m -> bf !! (r * m + c) = Some (z r c)) /\ (pres = true -> forall r c, i <= r < n -> c < m -> bf !! (r * m + c) = Some vzero)) 0 n F s0) as (bf & -> & Hl & Hb & _) end.
    - lia.
    - split; [destruct pres; [apply replicate_length|apply Hjunk]|]. split; [lia|]. intros -> r c Hr Hc. apply lookup_replicate_2. apply pos_lt; [lia|done].
    - intros r bf Hr (Hl & H1 & H2). destruct (lookup_lt_is_Some_2 rs r ltac:(lia)) as [l El]. assert (El' : row_at rs r = l) by (unfold row_at; by rewrite El).
      match goal with |- context [obind (if pres then Ok bf else ?X) _] => assert (Hinit : exists bf', (if pres then Ok bf else X) = Ok bf' /\ length bf' = n * m /\ (forall j, ~ (r * m <= j < r * m + m) -> bf' !! j = bf !! j) /\ forall c, c < m -> bf' !! (r * m + c) = Some (if pres then vzero else f vzero (y r c))) end.
      { destruct pres.
        - exists bf. split; [done|]. split; [done|]. split; [done|]. intros c Hc. apply H2; [done|lia|done].
        - match goal with |- context [for_up 0 m ?F bf] => destruct (for_up_inv (fun k (bf' : list V) => length bf' = n * m /\ (forall j, ~ (r * m <= j < r * m + m) -> bf' !! j = bf !! j) /\ forall c, c < k -> bf' !! (r * m + c) = Some (f vzero (y r c))) 0 m F bf) as (bf' & E & Hbf) end.
          + lia.
          + split; [done|]. split; [done|]. lia.
          + intros c t Hc (T1 & T2 & T3). rewrite (rd_Ok _ _ _ (Hy r c ltac:(lia) ltac:(lia))). cbn [obind]. rewrite wr_Ok by nia. eexists. split; [done|]. rewrite insert_length. split; [done|]. split; [intros j Hj; rewrite list_lookup_insert_ne by lia; by apply T2|]. intros c' Hc2. destruct (decide (c' = c)) as [->|]; [apply list_lookup_insert; nia|]. rewrite list_lookup_insert_ne by lia. apply T3. lia.
          + exists bf'. done. }
      destruct Hinit as (bf' & -> & Hl' & I1 & I2). cbn [obind]. rewrite (reads_row_nnz _ _ _ _ _ _ R El). cbn [obind]. destruct (reads_row _ _ _ _ _ _ R El) as (_ & O & -> & _). cbn [obind]. rewrite M in O.
      rewrite (row_loop b h base rs r l _ (fun e bf => wr bf (r * m + e.1) (f e.2 (y r e.1))) bf' R El).
      2:{ intros i c v t Hci Hvi Hlt. rewrite (rd_Ok _ _ _ Hci). cbn [obind]. rewrite (rd_Ok _ _ _ Hvi). cbn [obind fst snd]. rewrite M in Hlt. by rewrite (rd_Ok _ _ _ (Hy r c ltac:(lia) Hlt)). }
      destruct (row_write n m bf' r l (fun c v => f v (y r c)) Hl' ltac:(lia) O) as (bf2 & E2 & Hl2 & W1 & W2). exists bf2. split; [exact E2|]. split; [done|]. split.
      + intros r0 c Hr0 Hc. destruct (decide (r0 = r)) as [->|].
        * rewrite W2 by done. unfold z. rewrite El'. destruct (find_col c l); [done|]. by apply I2.
        * rewrite W1, I1 by nia. apply H1; [lia|done].
      + intros Ep r0 c Hr0 Hc. rewrite W1, I1 by nia. apply H2; [done|lia|done].
    - cbn [obind]. eexists _, z. split; [done|]. split; [by apply tabulated_is_dense|]. intros r c Hr Hc. rewrite <- X by done. rewrite cell_row_at, cell_in_find. unfold z. destruct (find_col c (row_at rs r)) as [v|]; cbn [from_option id]; [by left|]. unfold id. cbn. destruct pres eqn:Ep; [|by left]. right. split; [done|]. by apply Hp.
  Qed.
  Lemma ew_sca_csr_dense_ok b h n m x y : viszero vzero = true -> sparse_cells b h n m x ->
    exists res z, ew_sca_csr_dense f b h y = Ok res /\ is_dense res n m z /\ forall r c, r < n -> c < m -> same (z r c) (f (x r c) y).
  Proof.
    intros Hz (rs & S & N & M & X)%sparse_cells_cell. destruct (shows_reads _ _ _ S) as (base & R & _). unfold ew_sca_csr_dense. cbv zeta. rewrite N, M. pose proof (rd_rows _ _ _ _ R) as L. rewrite N in L.
    set (z0 := if viszero (f vzero y) then vzero else f vzero y). set (z := fun r c => match find_col c (row_at rs r) with Some v => f v y | None => z0 end).
    match goal with |- context [for_up 0 n ?F ?s0] => destruct (for_up_inv (fun i (bf : list V) => length bf = n * m /\ (forall r c, r < i -> c < m -> bf !! (r * m + c) = Some (z r c)) /\ (forall r c, i <= r < n -> c < m -> bf !! (r * m + c) = Some z0)) 0 n F s0) as (bf & -> & Hl & Hb & _) end.
    - lia.
    - split; [apply replicate_length|]. split; [lia|]. intros r c Hr Hc. apply lookup_replicate_2. apply pos_lt; [lia|done].
    - intros r bf Hr (Hl & H1 & H2). destruct (lookup_lt_is_Some_2 rs r ltac:(lia)) as [l El]. assert (El' : row_at rs r = l) by (unfold row_at; by rewrite El).
      rewrite (reads_row_nnz _ _ _ _ _ _ R El). cbn [obind]. destruct (reads_row _ _ _ _ _ _ R El) as (_ & O & -> & _). cbn [obind]. rewrite M in O.
      rewrite (row_loop b h base rs r l _ (fun e bf => wr bf (r * m + e.1) (f e.2 y)) bf R El).
      2:{ intros i c v t Hci Hvi Hlt. rewrite (rd_Ok _ _ _ Hci). cbn [obind]. by rewrite (rd_Ok _ _ _ Hvi). }
      destruct (row_write n m bf r l (fun c v => f v y) Hl ltac:(lia) O) as (bf2 & E2 & Hl2 & W1 & W2). exists bf2. split; [exact E2|]. split; [done|]. split.
      + intros r0 c Hr0 Hc. destruct (decide (r0 = r)) as [->|].
        * rewrite W2 by done. unfold z. rewrite El'. destruct (find_col c l); [done|]. apply H2; [lia|done].
        * rewrite W1 by nia. apply H1; [lia|done].
      + intros r0 c Hr0 Hc. rewrite W1 by nia. apply H2; [lia|done].
    - cbn [obind]. eexists _, z. split; [done|]. split; [by apply tabulated_is_dense|]. intros r c Hr Hc. rewrite <- X by done. rewrite cell_row_at, cell_in_find. unfold z. destruct (find_col c (row_at rs r)) as [v|]; cbn; [by left|]. unfold z0. destruct (viszero (f vzero y)) eqn:Ez; [by right|by left].
  Qed.
End Sparse.

(** * Theorems *)
(** Dense operands: same shapes, or rhs a row or column that is used for every row or column of lhs. *)
Theorem C52_dense {A B V} (junk : nat -> list V) (f : A -> B -> V) (a : dmat A) (b : dmat B) n m n' m' x y : junk_ok junk -> is_dense a n m x -> is_dense b n' m' y -> (n' = n /\ m' = m) \/ (n' = 1 /\ m' = m) \/ (n' = n /\ m' = 1) ->
  exists res, ew_dense junk f a b = Ok res /\ is_dense res n m (fun r c => f (x r c) (bcast n' m' y r c)).
Proof. intros Hj. by apply ew_dense_ok. Qed.
Theorem C52_dense_throws {A B V} (junk : nat -> list V) (f : A -> B -> V) (a : dmat A) (b : dmat B) n m n' m' x y : is_dense a n m x -> is_dense b n' m' y ->
  ~ (m' = m /\ (n' = n \/ n' = 1 \/ n = 1)) -> ~ (n' = n /\ (m' = m \/ m' = 1 \/ m = 1)) -> ew_dense junk f a b = Throw.
Proof. intros (Hr & Hc & _) (Hr' & Hc' & _) H1 H2. unfold ew_dense. rewrite Hr, Hc, Hr', Hc'. rewrite !decide_False by lia. done. Qed.
Theorem C52_dense_scalar {A B V} (junk : nat -> list V) (f : A -> B -> V) (a : dmat A) y n m x : junk_ok junk -> is_dense a n m x -> exists res, ew_sca_dense junk f a y = Ok res /\ is_dense res n m (fun r c => f (x r c) y).
Proof. intros Hj. by apply ew_sca_dense_ok. Qed.

Section theorems.
  Context {V : Type} `{Val V} (junk : nat -> list V) (alloc : nat -> nat -> csrbuf V) (f : V -> V -> V).
  (** [f] is the addition: zero is neutral. *)
  Theorem C52_add_sparse b1 h1 b2 h2 n m x y : alloc_ok alloc -> viszero vzero = true -> (forall v, same (f vzero v) v) -> (forall v, same (f v vzero) v) -> sparse_cells b1 h1 n m x -> sparse_cells b2 h2 n m y ->
    exists b h z, ew_add alloc f b1 h1 b2 h2 = Ok (b, h) /\ sparse_cells b h n m z /\ forall r c, r < n -> c < m -> same (z r c) (f (x r c) (y r c)).
  Proof. intros Ha. by apply ew_add_ok. Qed.
  (** [f] is the multiplication: zero is absorbing (which excludes infinities and NaN). *)
  Theorem C52_mul_sparse b1 h1 b2 h2 n m x y : alloc_ok alloc -> viszero vzero = true -> (forall v w, viszero v = true \/ viszero w = true -> viszero (f v w) = true) -> sparse_cells b1 h1 n m x -> sparse_cells b2 h2 n m y ->
    exists b h z, ew_mul alloc f b1 h1 b2 h2 = Ok (b, h) /\ sparse_cells b h n m z /\ forall r c, r < n -> c < m -> same (z r c) (f (x r c) (y r c)).
  Proof. intros Ha. by apply ew_mul_ok. Qed.
  Theorem C52_mul_sparse_dense b h (d : dmat V) n m n' m' x y : alloc_ok alloc -> viszero vzero = true -> (forall v w, viszero v = true \/ viszero w = true -> viszero (f v w) = true) -> sparse_cells b h n m x -> is_dense d n' m' y ->
    n' = n \/ n' = 1 -> m' = m \/ m' = 1 ->
    exists b' h' z, ew_mul_dense alloc f b h d = Ok (b', h') /\ sparse_cells b' h' n m z /\ forall r c, r < n -> c < m -> same (z r c) (f (x r c) (bcast n' m' y r c)).
  Proof. intros Ha. by apply ew_mul_dense_ok. Qed.
  (** Any operation with a dense result: right if the test of one value (is [f] 0 1 zero?) tells the truth about all values. *)
  Theorem C52_sparse_dense one b h (d : dmat V) n m x y : junk_ok junk -> viszero vzero = true -> (viszero (f vzero one) = true -> forall r c, r < n -> c < m -> viszero (f vzero (y r c)) = true) -> sparse_cells b h n m x -> is_dense d n m y ->
    exists res z, ew_csr_dense junk f one b h d = Ok res /\ is_dense res n m z /\ forall r c, r < n -> c < m -> same (z r c) (f (x r c) (y r c)).
  Proof. intros Hj. by apply ew_csr_dense_ok. Qed.
  (** Any operation with a scalar. *)
  Theorem C52_sparse_scalar b h n m x y : alloc_ok alloc -> viszero vzero = true -> sparse_cells b h n m x ->
    (exists b' h' z, ew_sca_csr alloc f b h y = Ok (b', h') /\ sparse_cells b' h' n m z /\ forall r c, r < n -> c < m -> same (z r c) (f (x r c) y)) /\
    (exists res z, ew_sca_csr_dense f b h y = Ok res /\ is_dense res n m z /\ forall r c, r < n -> c < m -> same (z r c) (f (x r c) y)).
  Proof. intros Ha Hz Hs. split; [by apply ew_sca_csr_ok|by apply ew_sca_csr_dense_ok]. Qed.
  Theorem C52_sparse_throws one b1 h1 b2 h2 d n m n' m' x y y' : sparse_cells b1 h1 n m x -> sparse_cells b2 h2 n' m' y -> is_dense d n' m' y' ->
    (n' <> n \/ m' <> m -> ew_add alloc f b1 h1 b2 h2 = Throw /\ ew_mul alloc f b1 h1 b2 h2 = Throw /\ ew_csr_dense junk f one b1 h1 d = Throw) /\
    ((n' <> n /\ n' <> 1) \/ (m' <> m /\ m' <> 1) -> ew_mul_dense alloc f b1 h1 d = Throw).
  Proof.
    intros (_ & N & M & _) (_ & N' & M' & _) (Hr & Hc & _). unfold ew_add, ew_mul, ew_csr_dense, ew_mul_dense. cbv zeta. rewrite N, M, N', M', Hr, Hc. split; intros Hne.
    - rewrite !decide_True by lia. done.
    - by rewrite decide_True by lia.
  Qed.
End theorems.

(** * What does not hold *)
Local Instance Val_Z : Val Z := { vzero := 0%Z; viszero := Z.eqb 0 }.
Definition zjk (k : nat) : list Z := replicate k 99%Z.
Definition zal (n nnz : nat) : csrbuf Z := mkBuf (replicate nnz 99%Z) (replicate nnz 9) (replicate (n + 1) 9).
Lemma zjk_ok : junk_ok zjk. Proof. intros k. apply replicate_length. Qed.
Lemma zal_ok : alloc_ok zal. Proof. intros n nnz. cbn. by rewrite !replicate_length. Qed.
(** A row or column as lhs is accepted but not used for every row or column of rhs: the result has the shape of lhs. *)
Theorem C52_lhs_vector_refuted : exists res, ew_dense zjk Z.add (mkDM [10; 20]%Z 0 1 2 2) (mkDM [1; 2; 3; 4]%Z 0 2 2 2) = Ok res /\ m_rows res = 1 /\ m_cols res = 2 /\ m_buf res = [11; 22]%Z.
Proof. eexists. split; [reflexivity|]. done. Qed.
(** With no rows in rhs, memory outside of it is read. *)
Theorem C52_lhs_row_empty_refuted : ew_dense zjk Z.add (mkDM [10; 20]%Z 0 1 2 2) (mkDM [] 0 0 2 2) = UB.
Proof. reflexivity. Qed.
(** min(0, 1) = 0 and (0 = 1) = 0 pass for sparsity preserving, but min(0, -5) = -5 and (0 = 0) = 1. *)
Definition zeq (a b : Z) : Z := if Z.eqb a b then 1%Z else 0%Z.
Definition sp_buf : csrbuf Z := mkBuf [3]%Z [0] [0; 1].
Definition sp_h : csrh := mkH 0 1 2 1 false 1 0.
Lemma sp_cells : sparse_cells sp_buf sp_h 1 2 (fun r c => if decide (c = 0) then 3%Z else 0%Z).
Proof.
  split; [|split; [done|split; [done|]]].
  - exists [[(0, 3%Z)]]. apply shows_all; [|done|done]. split; cbn.
    + split; [done|]. exists [], []. done.
    + constructor; [|constructor]. split; [repeat constructor|]. repeat constructor.
    + done.
    + done.
    + done.
  - intros [|r] [|[|c]] Hr Hc; (lia || reflexivity).
Qed.
Theorem C52_sparse_dense_refuted :
  (exists res, ew_csr_dense zjk Z.min 1%Z sp_buf sp_h (mkDM [7; -5]%Z 0 1 2 2) = Ok res /\ m_buf res = [3; 0]%Z /\ Z.min 0 (-5) = (-5)%Z) /\
  (exists res, ew_csr_dense zjk zeq 1%Z sp_buf sp_h (mkDM [3; 0]%Z 0 1 2 2) = Ok res /\ m_buf res = [1; 0]%Z /\ zeq 0 0 = 1%Z).
Proof. split; eexists; (split; [reflexivity|]); done. Qed.
(** A NaN in the dense operand is lost where the sparse one has no entry ([None] is NaN). *)
Local Instance Val_nan : Val (option Z) := { vzero := Some 0%Z; viszero := fun v => match v with Some z => Z.eqb 0 z | None => false end }.
Definition nmul (a b : option Z) : option Z := x ← a; y ← b; Some (x * y)%Z.
Theorem C52_nan_refuted : exists b h, ew_mul_dense (fun n nnz => mkBuf (replicate nnz None) (replicate nnz 9) (replicate (n + 1) 9)) nmul (mkBuf [Some 3%Z] [0] [0; 1]) sp_h (mkDM [Some 2%Z; None] 0 1 2 2) = Ok (b, h) /\
  csr_get b h 0 0 = Ok (Some 6%Z) /\ csr_get b h 0 1 = Ok (Some 0%Z) /\ nmul (Some 0%Z) None = None.
Proof. eexists _, _. split; [reflexivity|]. done. Qed.

(** * The theorems apply *)
Example C52_ex_laws : (forall v : Z, same (0 + v)%Z v) /\ (forall v : Z, same (v + 0)%Z v) /\ (forall v w : Z, viszero v = true \/ viszero w = true -> viszero (v * w)%Z = true) /\ viszero (vzero : Z) = true /\ viszero (0 - 1)%Z = false.
Proof. split; [intros; by left|]. split; [intros; left; lia|]. split; [|done]. cbn [viszero Val_Z]. intros v w [Hv%Z.eqb_eq|Hw%Z.eqb_eq]; apply Z.eqb_eq; lia. Qed.
Example C52_ex_add : exists b h, ew_add zal Z.add (mkBuf [3; 4]%Z [0; 2] [0; 2]) (mkH 0 1 3 1 false 2 0) (mkBuf [-3; 5]%Z [0; 1] [0; 2]) (mkH 0 1 3 1 false 2 0) = Ok (b, h) /\ broff b = [0; 2] /\ take 2 (bcols b) = [1; 2] /\ take 2 (bvals b) = [5; 4]%Z.
Proof. eexists _, _. split; [reflexivity|]. done. Qed.
Example C52_ex_mul : exists b h, ew_mul zal Z.mul (mkBuf [3; 4]%Z [0; 2] [0; 2]) (mkH 0 1 3 1 false 2 0) (mkBuf [-3; 5]%Z [0; 1] [0; 2]) (mkH 0 1 3 1 false 2 0) = Ok (b, h) /\ broff b = [0; 1] /\ take 1 (bvals b) = [-9]%Z.
Proof. eexists _, _. split; [reflexivity|]. done. Qed.
Example C52_ex_mul_dense : exists b h, ew_mul_dense zal Z.mul sp_buf sp_h (mkDM [5]%Z 0 1 1 1) = Ok (b, h) /\ bvals b = [15]%Z.
Proof. eexists _, _. split; [reflexivity|]. done. Qed.
Example C52_ex_scalar : exists b h, ew_sca_csr zal Z.add sp_buf sp_h 2%Z = Ok (b, h) /\ bvals b = [5; 2]%Z /\ sparse_cells sp_buf sp_h 1 2 (fun r c => if decide (c = 0) then 3%Z else 0%Z).
Proof. eexists _, _. split; [reflexivity|]. split; [done|]. apply sp_cells. Qed.
Example C52_ex_broadcast : exists res, ew_dense zjk Z.sub (mkDM [1; 2; 3; 4]%Z 0 2 2 2) (mkDM [10; 0; 20; 0]%Z 0 2 1 2) = Ok res /\ m_buf res = [-9; -8; -17; -16]%Z.
Proof. eexists. split; reflexivity. Qed.

Print Assumptions C52_dense. Print Assumptions C52_dense_throws. Print Assumptions C52_dense_scalar. Print Assumptions C52_add_sparse. Print Assumptions C52_mul_sparse. Print Assumptions C52_mul_sparse_dense.
Print Assumptions C52_sparse_dense. Print Assumptions C52_sparse_scalar. Print Assumptions C52_sparse_throws. Print Assumptions C52_sparse_dense_refuted. Print Assumptions C52_nan_refuted.
