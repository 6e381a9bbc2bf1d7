(** C95: searching a value, comparing approximately. *)
From stdpp Require Import base numbers list.
From Coq Require Import Lia.
From Verif Require Import CppBase ApproxModel.

(** Specification: a cell of a sparse matrix is the stored value of its column or zero *)
Fixpoint stored (row : list (nat * fv)) (c : nat) : fv :=
  match row with [] => FNum 0 | (c', x) :: row => if decide (c' = c) then x else stored row c end.
Definition cell (m : sparse) (r c : nat) : fv := match s_data m !! r with Some row => stored row c | None => FNum 0 end.
(** Each row stores some of the columns, each once *)
Definition wf_sparse (m : sparse) : Prop := Forall (fun row => NoDup (map fst row) /\ forall c, c ∈ map fst row -> c < s_cols m) (s_data m).
Definition within (eps : Z) (a b : fv) : Prop := match a, b with FNum x, FNum y => (Z.abs (x - y) <= eps)%Z | _, _ => False end.

Lemma test_eq v x : (if isnan v then isnan x else feq x v) = true <-> x = v.
Proof. destruct v, x; cbn; rewrite ?bool_decide_eq_true; split; congruence. Qed.
Lemma existsb_seq f n : existsb f (seq 0 n) = true <-> exists i, i < n /\ f i = true.
Proof. rewrite existsb_exists. split; intros (i & H & E); exists i; (split; [|exact E]); rewrite in_seq in *; lia. Qed.
Lemma forallb_seq f n : forallb f (seq 0 n) = true <-> forall i, i < n -> f i = true.
Proof. rewrite forallb_forall. split; intros H i Hi; apply H; rewrite ?in_seq in *; lia. Qed.
(** Searching a dense matrix finds the value, also not-a-number, exactly if a cell has it *)
Theorem C95_search_dense : forall m v, has_dense m v = true <-> exists r c, r < d_rows m /\ c < d_cols m /\ d_get m r c = v.
Proof.
  intros m v. transitivity (exists r, r < d_rows m /\ exists c, c < d_cols m /\ (if isnan v then isnan (d_get m r c) else feq (d_get m r c) v) = true).
  - unfold has_dense. destruct (isnan v); rewrite existsb_seq; split; intros (r & Hr & H); exists r; (split; [exact Hr|]); apply existsb_seq; exact H.
  - split.
    + intros (r & Hr & c & Hc & H). apply test_eq in H. eauto.
    + intros (r & c & Hr & Hc & H). exists r. split; [exact Hr|]. exists c. split; [exact Hc|]. apply test_eq, H.
Qed.
Lemma stored_in row c : c ∈ map fst row -> (c, stored row c) ∈ row.
Proof.
  induction row as [|[c' x] row IH]; cbn; [by intros ?%elem_of_nil|]. intros H. destruct (decide (c' = c)) as [->|N]; [left|right].
  apply IH. apply elem_of_cons in H as [H|H]; [congruence|exact H].
Qed.
Lemma stored_out row c : c ∉ map fst row -> stored row c = FNum 0.
Proof.
  induction row as [|[c' x] row IH]; cbn; [done|]. intros H. apply not_elem_of_cons in H as [H1 H2]. rewrite decide_False by congruence. auto.
Qed.
Lemma in_stored row c x : NoDup (map fst row) -> (c, x) ∈ row -> stored row c = x.
Proof.
  induction row as [|[c' y] row IH]; cbn; [by intros _ ?%elem_of_nil|]. intros N H. apply NoDup_cons in N as [N1 N2].
  apply elem_of_cons in H as [H|H].
  - injection H as -> ->. by rewrite decide_True.
  - rewrite decide_False; [auto|]. intros ->. apply N1. apply elem_of_list_fmap. by exists (c, x).
Qed.
Lemma row_len (row : list (nat * fv)) n : NoDup (map fst row) -> (forall c, c ∈ map fst row -> c < n) -> length row <= n.
Proof.
  intros N H. rewrite <- (map_length fst row), <- (seq_length n 0). apply NoDup_incl_length; [by apply NoDup_ListNoDup|].
  intros c Hc. apply in_seq. apply elem_of_list_In, H in Hc. lia.
Qed.
Lemma row_hole (row : list (nat * fv)) n : length row < n -> exists c, c < n /\ c ∉ map fst row.
Proof.
  intros H. destruct (decide (Forall (fun c => c ∈ map fst row) (seq 0 n))) as [F|F].
  - exfalso. assert (n <= length row); [|lia]. rewrite <- (map_length fst row), <- (seq_length n 0) at 1. apply NoDup_incl_length; [apply seq_NoDup|].
    intros c Hc. rewrite Forall_forall in F. apply elem_of_list_In, F. by apply elem_of_list_In.
  - apply not_Forall_Exists in F; [|apply _]. apply Exists_exists in F as (c & Hc & N). exists c. split; [|exact N].
    apply elem_of_list_In, in_seq in Hc. lia.
Qed.
Lemma row_full (row : list (nat * fv)) n c : NoDup (map fst row) -> (forall c, c ∈ map fst row -> c < n) -> c < n -> c ∉ map fst row -> length row < n.
Proof.
  intros N H Hc Hn. assert (L : length (c :: map fst row) <= length (seq 0 n)).
  { apply NoDup_incl_length; [apply NoDup_ListNoDup, NoDup_cons; done|]. intros x [<-|Hx]; apply in_seq; [lia|]. apply elem_of_list_In, H in Hx. lia. }
  rewrite seq_length in L. cbn in L. rewrite map_length in L. lia.
Qed.
Lemma holes n (l : list (list (nat * fv))) : Forall (fun row => NoDup (map fst row) /\ forall c, c ∈ map fst row -> c < n) l ->
  length (concat l) <= length l * n /\ (length (concat l) < length l * n <-> exists r row c, l !! r = Some row /\ c < n /\ c ∉ map fst row).
Proof.
  induction l as [|row l IH]; intros W; cbn [concat length].
  - split; [lia|]. split; [lia|]. intros (r & row & c & H & _). by rewrite lookup_nil in H.
  - apply Forall_cons in W as [[W1 W2] W]. destruct (IH W) as [IH1 IH2]. pose proof (row_len row n W1 W2) as L. rewrite app_length. split; [lia|]. split.
    + intros H. destruct (decide (length row < n)) as [D|D].
      * destruct (row_hole row n D) as (c & H1 & H2). exists 0, row, c. done.
      * destruct IH2 as [IH2 _]. destruct IH2 as (r & row' & c & H'); [lia|]. exists (S r), row', c. exact H'.
    + intros ([|r] & row' & c & H & H1 & H2); cbn in H.
      * injection H as <-. pose proof (row_full row n c W1 W2 H1 H2). lia.
      * assert (length (concat l) < length l * n); [|lia]. apply IH2. by exists r, row', c.
Qed.
(** Searching a sparse matrix finds the value, also zero and not-a-number, exactly if a cell has it, whether stored or not *)
Theorem C95_search_sparse : forall m v, wf_sparse m -> has_sparse m v = true <-> exists r c, r < s_rows m /\ c < s_cols m /\ cell m r c = v.
Proof.
  intros m v W. destruct (holes _ _ W) as [_ Hh].
  transitivity ((v = FNum 0 /\ s_nnz m < s_rows m * s_cols m) \/ exists e, e ∈ concat (s_data m) /\ snd e = v).
  - assert (A : existsb (fun e => if isnan v then isnan (snd e) else feq (snd e) v) (concat (s_data m)) = true <-> exists e, e ∈ concat (s_data m) /\ snd e = v).
    { rewrite existsb_exists. split; intros (e & H1 & H2); exists e; (split; [by apply elem_of_list_In|by apply test_eq]). }
    rewrite <- A. unfold has_sparse. destruct v as [z|]; cbn [isnan].
    + rewrite orb_true_iff, andb_true_iff, bool_decide_eq_true. cbn [feq]. rewrite bool_decide_eq_true. split; (intros [H|H]; [left|right; exact H]).
      * destruct H as [H1 <-]. done.
      * destruct H as [H1 H2]. injection H1 as ->. done.
    + split; [by right|]. intros [[H _]|H]; [discriminate|exact H].
  - unfold wf_sparse in W. rewrite Forall_lookup in W. split.
    + intros [[-> H]|([c x] & H & E)].
      * apply Hh in H as (r & row & c & H1 & H2 & H3). exists r, c. split; [by apply lookup_lt_Some in H1|]. split; [exact H2|]. unfold cell. rewrite H1. by apply stored_out.
      * cbn in E. subst x. apply elem_of_list_In, in_concat in H as (row & H1 & H2). apply elem_of_list_In in H1, H2.
        apply elem_of_list_lookup in H1 as (r & H1). destruct (W _ _ H1) as [W1 W2]. exists r, c. split; [by apply lookup_lt_Some in H1|].
        split; [apply W2, elem_of_list_fmap; by exists (c, v)|]. unfold cell. rewrite H1. by apply in_stored.
    + intros (r & c & Hr & Hc & E). destruct (lookup_lt_is_Some_2 (s_data m) r Hr) as [row H1]. unfold cell in E. rewrite H1 in E.
      destruct (decide (c ∈ map fst row)) as [D|D].
      * right. exists (c, stored row c). split; [|exact E]. apply elem_of_list_In, in_concat. exists row.
        split; apply elem_of_list_In; [by eapply elem_of_list_lookup_2|by apply stored_in].
      * left. rewrite stored_out in E by exact D. split; [done|]. apply Hh. by exists r, row, c.
Qed.

Lemma close_within eps a b : (0 <= eps)%Z -> close eps a b = true <-> a = FNan \/ b = FNan \/ within eps a b.
Proof.
  intros He. destruct a as [x|], b as [y|]; [|cbn; tauto..]. unfold close. cbn [fsub feq fgt fneg within].
  destruct (bool_decide (x - y = 0)%Z) eqn:D; [apply bool_decide_eq_true in D|apply bool_decide_eq_false in D].
  - split; [intros _; right; right; lia|done].
  - destruct (bool_decide (0 < x - y)%Z) eqn:P; [apply bool_decide_eq_true in P|apply bool_decide_eq_false in P]; cbn [fgt];
      rewrite negb_true_iff, bool_decide_eq_false; (split; [intros H; right; right; lia|intros [H|[H|H]]; try discriminate; lia]).
Qed.
(** Dense matrices are found equal exactly if they have the same shape and no two cells that are numbers differ by more than the threshold *)
Theorem C95_approx_dense : forall eps a b, (0 <= eps)%Z ->
  approx_dense eps a b = true <-> d_rows a = d_rows b /\ d_cols a = d_cols b /\
    forall r c, r < d_rows a -> c < d_cols a -> d_get a r c = FNan \/ d_get b r c = FNan \/ within eps (d_get a r c) (d_get b r c).
Proof.
  intros eps a b He. unfold approx_dense. destruct (bool_decide _) eqn:B.
  - apply bool_decide_eq_true in B. split; [discriminate|]. intros (H1 & H2 & _). destruct B; contradiction.
  - apply bool_decide_eq_false in B. rewrite forallb_seq. split.
    + intros H. split; [lia|]. split; [lia|]. intros r c Hr Hc. apply close_within; [exact He|]. specialize (H r Hr). rewrite forallb_seq in H. by apply H.
    + intros (_ & _ & H) r Hr. apply forallb_seq. intros c Hc. apply close_within; [exact He|]. by apply H.
Qed.
(** FAILS: so not-a-number is found equal to every number *)
Theorem C95_nan_refuted : forall eps rows cols get, (0 <= eps)%Z -> approx_dense eps (mkDense rows cols (fun _ _ => FNan)) (mkDense rows cols get) = true.
Proof. intros eps rows cols get He. apply C95_approx_dense; [exact He|]. cbn. auto. Qed.

(** Sparse matrices that store the same columns: as for dense ones *)
Lemma close_rows_spec eps : (0 <= eps)%Z -> forall a b, map (map fst) a = map (map fst) b -> Forall (fun row => NoDup (map fst row)) a ->
  close_rows eps a b = true <-> forall r ra rb c, a !! r = Some ra -> b !! r = Some rb ->
    stored ra c = FNan \/ stored rb c = FNan \/ within eps (stored ra c) (stored rb c).
Proof.
  intros He. assert (R : forall a b : list (nat * fv), map fst a = map fst b -> NoDup (map fst a) ->
    close_row eps a b = true <-> forall c, stored a c = FNan \/ stored b c = FNan \/ within eps (stored a c) (stored b c)).
  { induction a as [|[i x] a IH]; intros [|[j y] b] E N; cbn [map fst] in E; try discriminate.
    - split; [|done]. intros _ c. right. right. cbn. lia.
    - injection E as -> E. cbn [map fst] in N. apply NoDup_cons in N as [N1 N2]. cbn [close_row]. rewrite andb_true_iff, (IH b E N2), close_within by exact He. split.
      + intros [H1 H2] c. cbn [stored]. destruct (decide (j = c)); [exact H1|apply H2].
      + intros H. split; [specialize (H j); cbn [stored] in H; rewrite !decide_True in H by done; exact H|].
        intros c. specialize (H c). cbn [stored] in H. destruct (decide (j = c)) as [<-|]; [|exact H].
        rewrite stored_out by exact N1. rewrite stored_out by (rewrite <- E; exact N1). right. right. cbn. lia. }
  induction a as [|ra a IH]; intros [|rb b] E N; cbn [map] in E; try discriminate.
  - split; [|done]. intros _ r ra rb c H. by rewrite lookup_nil in H.
  - injection E as E1 E2. apply Forall_cons in N as [N1 N2]. cbn [close_rows].
    assert (length ra = length rb) by (rewrite <- (map_length fst ra), E1; apply map_length).
    rewrite bool_decide_eq_false_2 by lia. rewrite andb_true_iff, (R ra rb E1 N1), (IH b E2 N2). split.
    + intros [H1 H2] [|r] ra' rb' c Ha Hb; cbn in Ha, Hb; [injection Ha as <-; injection Hb as <-; apply H1|by apply (H2 r)].
    + intros Hx. split; [intros c; by apply (Hx 0)|]. intros r ra' rb' c Ha Hb. by apply (Hx (S r)).
Qed.
Theorem C95_approx_sparse : forall eps a b, (0 <= eps)%Z -> wf_sparse a -> s_cols a = s_cols b -> map (map fst) (s_data a) = map (map fst) (s_data b) ->
  approx_sparse eps a b = true <-> forall r c, r < s_rows a -> cell a r c = FNan \/ cell b r c = FNan \/ within eps (cell a r c) (cell b r c).
Proof.
  intros eps a b He W Ec Em. assert (Er : s_rows a = s_rows b) by (unfold s_rows; rewrite <- (map_length (map fst) (s_data a)), Em; apply map_length).
  unfold approx_sparse. rewrite bool_decide_eq_false_2 by lia. rewrite close_rows_spec; [|exact He|exact Em|].
  - unfold cell. split.
    + intros H r c Hr. destruct (lookup_lt_is_Some_2 (s_data a) r Hr) as [ra Ha]. rewrite Er in Hr. destruct (lookup_lt_is_Some_2 (s_data b) r Hr) as [rb Hb].
      specialize (H r ra rb c Ha Hb). by rewrite Ha, Hb.
    + intros H r ra rb c Ha Hb. specialize (H r c (lookup_lt_Some _ _ _ Ha)). by rewrite Ha, Hb in H.
  - eapply Forall_impl; [exact W|]. intros row [H _]. exact H.
Qed.
(** Sparse matrices of different shapes are never found equal *)
Theorem C95_sparse_shapes : forall eps a b, approx_sparse eps a b = true -> s_rows a = s_rows b /\ s_cols a = s_cols b.
Proof. intros eps a b. unfold approx_sparse. destruct (bool_decide _) eqn:B; [discriminate|]. apply bool_decide_eq_false in B. intros _. lia. Qed.
(** FAILS: for all sparse matrices of the same shape that store the same numbers in the same order, in whatever columns: they are found equal *)
Theorem C95_columns_refuted : forall eps a b, (0 <= eps)%Z -> s_cols a = s_cols b -> map (map snd) (s_data a) = map (map snd) (s_data b) -> approx_sparse eps a b = true.
Proof.
  intros eps a b He Ec Em. assert (Er : s_rows a = s_rows b) by (unfold s_rows; rewrite <- (map_length (map snd) (s_data a)), Em; apply map_length).
  unfold approx_sparse. rewrite bool_decide_eq_false_2 by lia. clear Ec Er. revert Em. generalize (s_data b). induction (s_data a) as [|ra la IH]; intros [|rb lb] E; cbn [map] in E; try discriminate; [done|].
  injection E as E1 E2. cbn [close_rows]. assert (length ra = length rb) by (rewrite <- (map_length snd ra), E1; apply map_length).
  rewrite bool_decide_eq_false_2 by lia. rewrite (IH lb E2), andb_true_r. clear -E1 He. revert rb E1. induction ra as [|[i x] ra IH]; intros [|[j y] rb] E; cbn [map] in E; try discriminate; [done|].
  cbn [snd] in E. injection E as -> E. cbn [close_row]. rewrite (IH rb E), andb_true_r. apply close_within; [exact He|]. destruct y; [right; right; cbn; lia|by left].
Qed.
(** FAILS the other way: a stored zero makes equal matrices different *)
Theorem C95_stored_zero_refuted : forall eps cols c, c < cols ->
  let a := mkSparse cols [[(c, FNum 0)]] in let b := mkSparse cols [[]] in
  wf_sparse a /\ wf_sparse b /\ (forall r c', cell a r c' = cell b r c') /\ approx_sparse eps a b = false.
Proof.
  intros eps cols c Hc a b. split; [|split; [|split]].
  - apply Forall_cons. split; [|by apply Forall_nil]. cbn. split; [apply NoDup_singleton|]. intros x [->|Hx]%elem_of_cons; [exact Hc|by apply elem_of_nil in Hx].
  - apply Forall_cons. split; [|by apply Forall_nil]. cbn. split; [apply NoDup_nil_2|]. intros x Hx. by apply elem_of_nil in Hx.
  - intros [|[|r]] c'; unfold cell; cbn; [by destruct (decide (c = c'))|done..].
  - unfold approx_sparse. cbn [s_rows s_data s_cols a b length]. rewrite bool_decide_eq_false_2 by (cbn; lia). reflexivity.
Qed.
(** By the generic interface all representations are compared by their cells, stored or not *)
Theorem C95_approx_generic : forall eps a b,
  approx_matrix eps a b = true <-> d_rows a = d_rows b /\ d_cols a = d_cols b /\
    forall r c, r < d_rows a -> c < d_cols a -> d_get a r c = FNan \/ d_get b r c = FNan \/ within eps (d_get a r c) (d_get b r c).
Proof.
  intros eps a b.
  assert (K : forall x y, close_abs eps x y = true <-> x = FNan \/ y = FNan \/ within eps x y).
  { intros [x|] [y|]; unfold close_abs; cbn [fsub within]; [|tauto..]. rewrite negb_true_iff, bool_decide_eq_false.
    split; [intros H; right; right; lia|intros [H|[H|H]]; try discriminate; lia]. }
  unfold approx_matrix. destruct (bool_decide _) eqn:B.
  - apply bool_decide_eq_true in B. split; [discriminate|]. intros (H1 & H2 & _). destruct B; contradiction.
  - apply bool_decide_eq_false in B. rewrite forallb_seq. split.
    + intros H. split; [lia|]. split; [lia|]. intros r c Hr Hc. apply K. specialize (H r Hr). rewrite forallb_seq in H. by apply H.
    + intros (_ & _ & H) r Hr. apply forallb_seq. intros c Hc. apply K. by apply H.
Qed.
(** Frames are found equal exactly if they have the same number of rows, types and labels, and all columns are found equal *)
Theorem C95_approx_frame : forall eps a b, 
  approx_frame eps a b = true <-> f_rows a = f_rows b /\ f_schema a = f_schema b /\ f_labels a = f_labels b /\
    Forall2 (fun x y => approx_dense eps x y = true) (f_columns a) (f_columns b).
Proof.
  intros eps a b.
  assert (Z : forall l l' : list dense, length l = length l' ->
    forallb (fun p => approx_dense eps (fst p) (snd p)) (zip l l') = true <-> Forall2 (fun x y => approx_dense eps x y = true) l l').
  { induction l as [|x l IH]; intros [|y l'] E; cbn in E; try discriminate; [split; [constructor|done]|].
    cbn [zip zip_with forallb fst snd]. rewrite andb_true_iff, Forall2_cons. unfold zip in IH. rewrite IH by lia. done. }
  unfold approx_frame. destruct (bool_decide (_ \/ _)) eqn:B1; [apply bool_decide_eq_true in B1|apply bool_decide_eq_false in B1].
  { split; [discriminate|]. intros (H1 & _ & _ & H4). apply Forall2_length in H4. destruct B1; contradiction. }
  destruct (bool_decide _) eqn:B2; [apply bool_decide_eq_true in B2; split; [discriminate|tauto]|apply bool_decide_eq_false in B2].
  destruct (bool_decide _) eqn:B3; [apply bool_decide_eq_true in B3; split; [discriminate|tauto]|apply bool_decide_eq_false in B3].
  apply dec_stable in B2, B3. rewrite Z by lia. split; [intros H; repeat split; [lia|exact B2|exact B3|exact H]|intros (_ & _ & _ & H); exact H].
Qed.
(** FAILS for unsigned numbers: of two numbers within the threshold the comparison says yes if the larger one comes first, and no if it comes second *)
Theorem C95_unsigned_refuted : forall bits eps a b, (0 <= bits)%Z -> (0 <= a < b)%Z -> (b < 2 ^ bits)%Z -> (b - a <= eps < 2 ^ bits - (b - a))%Z ->
  close_unsigned bits eps b a = true /\ close_unsigned bits eps a b = false.
Proof.
  intros bits eps a b Hb Hab Hlt He. unfold close_unsigned.
  rewrite (Z.mod_small (b - a)) by lia.
  replace ((a - b) mod 2 ^ bits)%Z with (2 ^ bits - (b - a))%Z by (apply (Z.mod_unique_pos _ _ (-1)); lia).
  generalize dependent (2 ^ bits)%Z. intros M HM He. split.
  - rewrite (bool_decide_eq_false_2 (b - a = 0)%Z), (bool_decide_eq_true_2 (0 < b - a)%Z), (bool_decide_eq_false_2 (eps < b - a)%Z) by lia. done.
  - rewrite (bool_decide_eq_false_2 (M - (b - a) = 0)%Z), (bool_decide_eq_true_2 (0 < M - (b - a))%Z), (bool_decide_eq_true_2 (eps < M - (b - a))%Z) by lia. done.
Qed.
(** ... and it is right if the larger one comes first, or they are equal *)
Theorem C95_unsigned : forall bits eps a b, (0 <= eps)%Z -> (0 <= a <= b)%Z -> (b < 2 ^ bits)%Z -> close_unsigned bits eps b a = true <-> (b - a <= eps)%Z.
Proof.
  intros bits eps a b He Hab Hlt. unfold close_unsigned. rewrite (Z.mod_small (b - a)) by lia.
  destruct (decide (b - a = 0)%Z) as [D|D].
  - rewrite bool_decide_eq_true_2 by exact D. split; [lia|done].
  - rewrite bool_decide_eq_false_2 by exact D. rewrite (bool_decide_eq_true_2 (0 < b - a)%Z) by lia. rewrite negb_true_iff, bool_decide_eq_false. lia.
Qed.
Theorem C95_unsigned_example : close_unsigned 8 1 2 1 = true /\ close_unsigned 8 1 1 2 = false.
Proof. apply C95_unsigned_refuted; lia. Qed.
(** A case: 2 x 2 with three stored values, one of them zero *)
Theorem C95_example : let m := mkSparse 2 [[(1, FNum 5)]; [(0, FNum 0); (1, FNan)]] in
  wf_sparse m /\ has_sparse m FNan = true /\ has_sparse m (FNum 0) = true /\ has_sparse m (FNum 7) = false /\
  approx_sparse 1 m (mkSparse 2 [[(1, FNum 6)]; [(0, FNum 0); (1, FNan)]]) = true /\ approx_sparse 1 m (mkSparse 2 [[(1, FNum 7)]; [(0, FNum 0); (1, FNan)]]) = false.
Proof.
  split; [|vm_compute; done]. repeat (apply Forall_cons; split); [..|by apply Forall_nil]; (split; [apply (bool_decide_unpack _); vm_compute; done|]);
    cbn; intros x Hx; repeat (apply elem_of_cons in Hx as [->|Hx]; [lia|]); by apply elem_of_nil in Hx.
Qed.
Print Assumptions C95_search_dense. Print Assumptions C95_search_sparse. Print Assumptions C95_approx_dense. Print Assumptions C95_nan_refuted.
Print Assumptions C95_approx_sparse. Print Assumptions C95_columns_refuted. Print Assumptions C95_stored_zero_refuted. Print Assumptions C95_example. Print Assumptions C95_sparse_shapes.
Print Assumptions C95_approx_generic. Print Assumptions C95_approx_frame. Print Assumptions C95_unsigned_refuted. Print Assumptions C95_unsigned.
