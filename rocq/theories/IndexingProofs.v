(** Proofs about indexing. *)
From stdpp Require Import base numbers sorting list list_numbers.
From Coq Require Import ZArith Lia.
From Verif Require Import CppBase Mem CSRModel CSRSpec SparseSpec CastModel CastProofs ReorgModel Reorg InsertModel Insert BitmapModel Bitmap ExtractModel Extract IndexingModel IndexingSpec.
Local Open Scope nat_scope.

Lemma to_si64_plain p : plain p -> to_si64 p = Ok (floor p).
Proof.
  intros [H B]. unfold to_si64. assert (E : Z.quot (p_num p) (Z.pos (p_den p)) = floor p).
  { unfold floor. destruct H as [H|H]; [rewrite H, Z.quot_1_r, Z.div_1_r; reflexivity|]. apply Z.quot_div_nonneg; lia. }
  cbv zeta. rewrite E. rewrite decide_True by exact B. reflexivity.
Qed.
Lemma plus1_small z : (- 2 ^ 63 <= z < 2 ^ 63 - 1)%Z -> plus1 z = (z + 1)%Z.
Proof. intros B. unfold plus1. rewrite Z.mod_small by lia. lia. Qed.
Lemma plus1_i64 z : i64 (plus1 z).
Proof. unfold i64, plus1. pose proof (Z.mod_pos_bound (z + 1 + 2 ^ 63) (2 ^ 64) ltac:(lia)). lia. Qed.

Definition axis_bounds (n : nat) (ax : axis) : outcome (Z * Z) :=
  match ax with At p => bounds_at p | Range lo up => bounds n lo up | _ => Throw end.
Lemma axis_range n ax : small n -> clean ax -> assignable ax -> given ax = true -> exists lo up, axis_bounds n ax = Ok (lo, up) /\ i64 lo /\ i64 up /\
  (forall l u, slice_range n lo up l u -> addressed n ax (seq l (u - l))) /\
  (forall rs, addressed n ax rs -> exists l u, slice_range n lo up l u /\ rs = seq l (u - l)) /\
  (0 < n -> forall l u, insert_range n lo up l u <-> slice_range n lo up l u).
Proof.
  unfold small. intros Hn Hc Ha Hg. destruct ax as [|p|lo up|sel|]; try discriminate Hg; try contradiction.
  - cbn in Hc. pose proof Hc as [_ B]. exists (floor p), (plus1 (floor p)). cbn [axis_bounds]. unfold bounds_at. rewrite to_si64_plain by exact Hc. cbn [obind]. split; [reflexivity|]. split; [exact B|]. split; [apply plus1_i64|].
    destruct (decide (floor p = 2 ^ 63 - 1)%Z) as [E|E].
    + rewrite E. unfold slice_range, insert_range, from_end. rewrite !(decide_False (P := (2 ^ 63 - 1 < 0)%Z)) by lia. split; [intros l u H; lia|]. split; [|intros H l u; lia].
      intros rs H. inversion H as [| |p' i H1 H2| | | |]; subst. unfold counted in H1. rewrite E in H1. rewrite decide_False in H1 by lia. lia.
    + rewrite plus1_small by lia. unfold slice_range, insert_range, from_end. split; [|split].
      * intros l u (H1 & H2 & H3 & H4). assert (u = l + 1) as -> by (repeat case_decide; lia). replace (l + 1 - l) with 1 by lia. cbn [seq]. constructor; [|exact H3]. unfold counted. exact H1.
      * intros rs H. inversion H as [| |p' i H1 H2| | | |]; subst. unfold counted in H1. exists i, (i + 1). replace (i + 1 - i) with 1 by lia. split; [|reflexivity]. split; [exact H1|]. split; [repeat case_decide; lia|lia].
      * intros H0 l u. split; intros (H1 & H2 & H3 & H4); repeat split; repeat case_decide; lia.
  - cbn in Hc. destruct Hc as (C1 & C2 & C3). set (l0 := match lo with Some p => floor p | None => 0%Z end). set (u0 := match up with Some p => floor p | None => Z.of_nat n end).
    exists l0, u0. assert (B1 : i64 l0) by (unfold l0, i64; destruct lo as [p|]; [exact (proj2 (C1 p eq_refl))|lia]). assert (B2 : i64 u0) by (unfold u0, i64; destruct up as [p|]; [exact (proj2 (C2 p eq_refl))|lia]).
    split. { cbn [axis_bounds]. unfold bounds, l0, u0. destruct lo as [p|]; [rewrite (to_si64_plain p (C1 p eq_refl))|]; (destruct up as [q|]; [rewrite (to_si64_plain q (C2 q eq_refl))|]); reflexivity. }
    split; [exact B1|]. split; [exact B2|]. assert (NZ : 0 < n -> ~ (l0 < 0 /\ u0 = 0)%Z).
    { intros H0 [X Y]. unfold l0, u0 in *. destruct lo as [p|]; [|lia]. destruct up as [q|]; [|lia]. apply C3. exists p, q. auto. }
    split; [|split].
    + intros l u (H1 & H2 & H3 & H4). rewrite decide_False in H2 by (apply NZ; lia). unfold from_end in *. unfold l0, u0 in *. destruct lo as [p|], up as [q|]; [| | |discriminate Hg].
      * constructor; (exact H1 || exact H2 || lia).
      * rewrite (decide_False (P := (Z.of_nat n < 0)%Z)) in H2 by lia. assert (u = n) as -> by lia. constructor; (exact H1 || lia).
      * rewrite (decide_False (P := (0 < 0)%Z)) in H1 by lia. assert (l = 0) as -> by lia. rewrite Nat.sub_0_r. constructor; (exact H2 || lia).
    + intros rs H. inversion H; subst; [discriminate Hg| | |]; unfold slice_range, from_end, l0, u0, counted in *.
      * exists l, n. split; [|reflexivity]. repeat split; repeat case_decide; lia.
      * exists 0, u. rewrite Nat.sub_0_r. split; [|reflexivity]. repeat split; repeat case_decide; lia.
      * exists l, u. split; [|reflexivity]. repeat split; try lia. rewrite decide_False; [lia|]. apply NZ. lia.
    + intros H0 l u. unfold slice_range, insert_range.
      assert (X : forall b, (if decide (l0 < 0 /\ u0 = 0)%Z then b else from_end n u0) = from_end n u0) by (intros b; apply decide_False, NZ, H0).
      rewrite (X (Z.of_nat n)), (X (Z.of_nat l + 1)%Z). intuition lia.
Qed.

Section proofs.
  Context {V : Type} `{Val V} (junk : nat -> list V) (Hj : junk_ok junk).
  Lemma right_rows_given ax (a : dmat V) : given ax = true -> assignable ax -> right_rows junk ax a = (let* b := axis_bounds (m_rows a) ax in slice_row a (fst b) (snd b)).
  Proof. destruct ax as [|p|lo up|sel|]; try done. destruct lo, up; done. Qed.
  Lemma right_cols_given ax (a : dmat V) : given ax = true -> assignable ax -> right_cols junk ax a = (let* b := axis_bounds (m_cols a) ax in slice_col a (fst b) (snd b)).
  Proof. destruct ax as [|p|lo up|sel|]; try done. destruct lo, up; done. Qed.
  Lemma left_rows_given ax (a i : dmat V) : assignable ax -> given ax = true -> left_rows junk ax a i = (let* b := axis_bounds (m_rows a) ax in insert_row junk a i (fst b) (snd b)).
  Proof. by destruct ax. Qed.
  Lemma left_cols_given ax (a i : dmat V) : assignable ax -> given ax = true -> left_cols junk ax a i = (let* b := axis_bounds (m_cols a) ax in insert_col junk a i (fst b) (snd b)).
  Proof. by destruct ax. Qed.
  Lemma omitted ax n rs : given ax = false -> addressed n ax rs -> rs = seq 0 n.
  Proof. intros Hg H1. by inversion H1; subst. Qed.
  Lemma omitted_rows ax (a : dmat V) : given ax = false -> right_rows junk ax a = Ok a.
  Proof. destruct ax as [|p|lo up|sel|]; try done. destruct lo, up; done. Qed.
  Lemma omitted_cols ax (a : dmat V) : given ax = false -> right_cols junk ax a = Ok a.
  Proof. destruct ax as [|p|lo up|sel|]; try done. destruct lo, up; done. Qed.
  Lemma omitted_addressed ax n : given ax = false -> addressed n ax (seq 0 n).
  Proof. destruct ax as [|p|lo up|sel|]; try done; [constructor|]. destruct lo, up; try done. constructor. Qed.
  Lemma seq_total l k r : r < k -> seq l k !!! r = l + r.
  Proof. intros Hr. apply list_lookup_total_correct, lookup_seq. lia. Qed.
  Lemma counted_sel n z i : Z.of_nat i = counted n z /\ i < n -> sel_pos n z = Some i.
  Proof. unfold counted, sel_pos. intros [E L]. repeat case_decide; try lia; f_equal; lia. Qed.
  Lemma column_rows sel zs : column sel zs -> m_rows sel = length zs.
  Proof. by intros (E & _). Qed.

  Lemma right_rows_ok ax (a : dmat V) n m x rs : is_dense a n m x -> small n -> clean ax -> addressed n ax rs ->
    exists res, right_rows junk ax a = Ok res /\ is_dense res (length rs) m (fun r c => x (rs !!! r) c).
  Proof.
    intros Ha Hn Hc Had. destruct (given ax) eqn:Hg.
    - destruct ax as [|p|lo up|sel|] eqn:Eax; [discriminate| | | |inversion Had]; rewrite <- Eax in *.
      1,2: assert (As : assignable ax) by (rewrite Eax; exact I); destruct (axis_range n ax Hn Hc As Hg) as (lo' & up' & E & B1 & B2 & _ & F & _); destruct (F rs Had) as (l & u & Sr & ->);
        rewrite right_rows_given by assumption; rewrite (proj1 Ha), E; cbn [obind fst snd];
        destruct (slice_row_ok a n m l u lo' up' x Ha Hn B1 B2 Sr) as (res & -> & D); exists res; split; [done|]; rewrite seq_length; eapply is_dense_ext; [exact D|]; intros r c Hr _; cbn beta; by rewrite seq_total.
      subst ax. inversion Had as [| | | | | |sel' zs is Hcol Hf]; subst. destruct Hc as [Hs Hi]. cbn [right_rows]. pose proof (column_rows _ _ Hcol) as El. pose proof (Forall2_length _ _ _ Hf) as Lf.
      destruct (C43_extract_rows (junk (m_rows sel * m_cols a)) a sel n m x zs rs Ha Hcol) as (res & -> & D); [rewrite <- El; exact Hs|exact Hn|exact (Hi zs Hcol)|eapply Forall2_impl; [exact Hf|]; intros z i; apply counted_sel|rewrite El; destruct Ha as (_ & -> & _); apply Hj|].
      exists res. split; [done|]. rewrite <- Lf. exact D.
    - rewrite omitted_rows by exact Hg. rewrite (omitted ax n rs Hg Had). exists a. split; [done|]. rewrite seq_length. eapply is_dense_ext; [exact Ha|]. intros r c Hr _. by rewrite seq_total.
  Qed.
  Lemma right_cols_ok ax (a : dmat V) n m x cs : is_dense a n m x -> small m -> clean ax -> addressed m ax cs ->
    exists res, right_cols junk ax a = Ok res /\ is_dense res n (length cs) (fun r c => x r (cs !!! c)).
  Proof.
    intros Ha Hn Hc Had. destruct (given ax) eqn:Hg.
    - destruct ax as [|p|lo up|sel|] eqn:Eax; [discriminate| | | |inversion Had]; rewrite <- Eax in *.
      1,2: assert (As : assignable ax) by (rewrite Eax; exact I); destruct (axis_range m ax Hn Hc As Hg) as (lo' & up' & E & B1 & B2 & _ & F & _); destruct (F cs Had) as (l & u & Sr & ->);
        rewrite right_cols_given by assumption; rewrite (proj1 (proj2 Ha)), E; cbn [obind fst snd];
        destruct (slice_col_ok a n m l u lo' up' x Ha Hn B1 B2 Sr) as (res & -> & D); exists res; split; [done|]; rewrite seq_length; eapply is_dense_ext; [exact D|]; intros r c _ Hr; cbn beta; by rewrite seq_total.
      subst ax. inversion Had as [| | | | | |sel' zs is Hcol Hf]; subst. destruct Hc as [Hs Hi]. cbn [right_cols]. pose proof (column_rows _ _ Hcol) as El. pose proof (Forall2_length _ _ _ Hf) as Lf.
      destruct (C43_extract_cols (junk (m_rows a * m_rows sel)) a sel n m x zs cs Ha Hcol) as (res & -> & D); [rewrite <- El; exact Hs|exact Hn|exact (Hi zs Hcol)|eapply Forall2_impl; [exact Hf|]; intros z i; apply counted_sel|rewrite El; destruct Ha as (-> & _); apply Hj|].
      exists res. split; [done|]. rewrite <- Lf. exact D.
    - rewrite omitted_cols by exact Hg. rewrite (omitted ax m cs Hg Had). exists a. split; [done|]. rewrite seq_length. eapply is_dense_ext; [exact Ha|]. intros r c _ Hr. by rewrite seq_total.
  Qed.
  Lemma right_rows_bad ax (a : dmat V) n m x : is_dense a n m x -> small n -> clean ax -> assignable ax -> (~ exists rs, addressed n ax rs) -> right_rows junk ax a = Throw.
  Proof.
    intros Ha Hn Hc As Hno. destruct (given ax) eqn:Hg; [|exfalso; apply Hno; exists (seq 0 n); by apply omitted_addressed].
    destruct (axis_range n ax Hn Hc As Hg) as (lo' & up' & E & B1 & B2 & F & _); rewrite right_rows_given by assumption; pose proof Ha as (Hr & _); rewrite Hr, E; cbn [obind fst snd].
    unfold slice_row; rewrite Hr; destruct (slice_bounds_spec n lo' up' Hn B1 B2) as [_ Hb]; specialize (Hb ltac:(intros (l & u & Sr); apply Hno; eexists; apply F; exact Sr)); destruct (slice_bounds n lo' up') as [l u]; cbn in Hb; by rewrite Hb.
  Qed.
  Lemma right_cols_bad ax (a : dmat V) n m x : is_dense a n m x -> small m -> clean ax -> assignable ax -> (~ exists rs, addressed m ax rs) -> right_cols junk ax a = Throw.
  Proof.
    intros Ha Hn Hc As Hno. destruct (given ax) eqn:Hg; [|exfalso; apply Hno; exists (seq 0 m); by apply omitted_addressed].
    destruct (axis_range m ax Hn Hc As Hg) as (lo' & up' & E & B1 & B2 & F & _); rewrite right_cols_given by assumption; pose proof Ha as (_ & Hr & _); rewrite Hr, E; cbn [obind fst snd].
    unfold slice_col; rewrite Hr; destruct (slice_bounds_spec m lo' up' Hn B1 B2) as [_ Hb]; specialize (Hb ltac:(intros (l & u & Sr); apply Hno; eexists; apply F; exact Sr)); destruct (slice_bounds m lo' up') as [l u]; cbn in Hb; by rewrite Hb.
  Qed.
  Lemma insert_bad_spec n m ni mi lo up : small n -> small ni -> i64 lo -> i64 up -> (~ exists l u, insert_range n lo up l u /\ ni = u - l /\ mi = m) -> insert_bad n m ni mi (insert_bounds n lo up).1 (insert_bounds n lo up).2 = true.
  Proof.
    intros Hn Hni Hlo Hup Hno. destruct (insert_bounds_spec n m ni mi lo up Hn Hni Hlo Hup) as [H1 H2]. destruct (insert_bad n m ni mi (insert_bounds n lo up).1 (insert_bounds n lo up).2) eqn:E; [done|]. exfalso.
    enough (Hex : ~ exists l u, insert_range n lo up l u) by (specialize (H2 Hex); congruence). intros (l & u & Hrg). destruct (H1 l u Hrg) as [E1 E2]. rewrite E1 in E. cbn in E. rewrite E in E2. apply Hno. exists l, u. split; [done|]. symmetry in E2. apply negb_false_iff in E2. by apply bool_decide_eq_true_1 in E2.
  Qed.
  (** Assigning to rows, and to columns. *)
  Lemma left_rows_ok ax (a i : dmat V) n m x y rs : is_dense a n m x -> is_dense i (length rs) m y -> small n -> clean ax -> assignable ax -> given ax = true -> addressed n ax rs ->
    exists b l u, rs = seq l (u - l) /\ l <= u <= n /\ left_rows junk ax a i = Ok b /\ is_dense b n m (with_rows l u x y).
  Proof.
    intros Ha Hi Hn Hc As Hg Had. destruct (axis_range n ax Hn Hc As Hg) as (lo & up & E & B1 & B2 & _ & F & G). destruct (F rs Had) as (l & u & Sr & ->). rewrite seq_length in Hi.
    rewrite left_rows_given by assumption. rewrite (proj1 Ha), E. cbn [obind fst snd]. pose proof Sr as (_ & _ & Hl & Hu). apply G in Sr; [|lia].
    destruct (insert_row_ok junk Hj a i n m l u lo up x y Ha Hi Hn B1 B2 Sr) as (b & -> & D). exists b, l, u. repeat split; try lia; apply D.
  Qed.
  Lemma left_cols_ok ax (a i : dmat V) n m x y cs : is_dense a n m x -> is_dense i n (length cs) y -> small m -> clean ax -> assignable ax -> given ax = true -> addressed m ax cs ->
    exists b l u, cs = seq l (u - l) /\ l <= u <= m /\ left_cols junk ax a i = Ok b /\ is_dense b n m (with_cols l u x y).
  Proof.
    intros Ha Hi Hn Hc As Hg Had. destruct (axis_range m ax Hn Hc As Hg) as (lo & up & E & B1 & B2 & _ & F & G). destruct (F cs Had) as (l & u & Sr & ->). rewrite seq_length in Hi.
    rewrite left_cols_given by assumption. rewrite (proj1 (proj2 Ha)), E. cbn [obind fst snd]. pose proof Sr as (_ & _ & Hl & Hu). apply G in Sr; [|lia].
    destruct (insert_col_ok junk Hj a i n m l u lo up x y Ha Hi Hn B1 B2 Sr) as (b & -> & D). exists b, l, u. repeat split; try lia; apply D.
  Qed.
  Lemma left_rows_bad ax (a i : dmat V) n m ni mi x y : is_dense a n m x -> is_dense i ni mi y -> 0 < n -> small n -> small ni -> clean ax -> assignable ax -> given ax = true ->
    (~ exists rs, addressed n ax rs /\ ni = length rs /\ mi = m) -> left_rows junk ax a i = Throw.
  Proof.
    intros Ha Hi H0 Hn Hni Hc As Hg Hno. destruct (axis_range n ax Hn Hc As Hg) as (lo & up & E & B1 & B2 & F & _ & G). rewrite left_rows_given by assumption. pose proof Ha as (Hr & Hcl & _). pose proof Hi as (Hri & Hci & _).
    rewrite Hr, E. cbn [obind fst snd]. unfold insert_row. cbv zeta. rewrite Hr, Hcl, Hri, Hci. pose proof (insert_bad_spec n m ni mi lo up Hn Hni B1 B2) as X.
    rewrite (surjective_pairing (insert_bounds n lo up)). rewrite X; [done|]. intros (l & u & Rg & E1 & E2). apply Hno. exists (seq l (u - l)). rewrite seq_length. split; [|done]. apply F, G; assumption.
  Qed.
  Lemma left_cols_bad ax (a i : dmat V) n m ni mi x y : is_dense a n m x -> is_dense i ni mi y -> 0 < m -> small m -> small mi -> clean ax -> assignable ax -> given ax = true ->
    (~ exists cs, addressed m ax cs /\ mi = length cs /\ ni = n) -> left_cols junk ax a i = Throw.
  Proof.
    intros Ha Hi H0 Hn Hni Hc As Hg Hno. destruct (axis_range m ax Hn Hc As Hg) as (lo & up & E & B1 & B2 & F & _ & G). rewrite left_cols_given by assumption. pose proof Ha as (Hr & Hcl & _). pose proof Hi as (Hri & Hci & _).
    rewrite Hcl, E. cbn [obind fst snd]. unfold insert_col. cbv zeta. rewrite Hr, Hcl, Hri, Hci. pose proof (insert_bad_spec m n mi ni lo up Hn Hni B1 B2) as X.
    rewrite (surjective_pairing (insert_bounds m lo up)). rewrite X; [done|]. intros (l & u & Rg & E1 & E2). apply Hno. exists (seq l (u - l)). rewrite seq_length. split; [|done]. apply F, G; assumption.
  Qed.
  (** [addressed] can be decided for ranges. *)
  Lemma addressed_dec ax n : small n -> clean ax -> assignable ax -> (exists rs, addressed n ax rs) \/ ~ exists rs, addressed n ax rs.
  Proof.
    intros Hn Hc As. destruct (given ax) eqn:Hg; [|left; exists (seq 0 n); by apply omitted_addressed]. destruct (axis_range n ax Hn Hc As Hg) as (lo & up & _ & B1 & B2 & F & G & _).
    destruct (slice_bounds_spec n lo up Hn B1 B2) as [P Q]. destruct (slice_bad n (slice_bounds n lo up).1 (slice_bounds n lo up).2) eqn:E.
    - right. intros (rs & Had). destruct (G rs Had) as (l & u & Sr & _). destruct (P l u Sr) as [X Y]. rewrite X in E. cbn in E. congruence.
    - left. unfold slice_bad in E. apply bool_decide_eq_false_1 in E. set (l := (slice_bounds n lo up).1) in *. set (u := (slice_bounds n lo up).2) in *.
      assert (Hl : (- 2 ^ 63 <= l < 2 ^ 64)%Z) by (unfold l, slice_bounds, i64, small in *; repeat case_decide; cbn; lia). assert (Hu : (- 2 ^ 63 <= u < 2 ^ 64)%Z) by (unfold u, slice_bounds, i64, small in *; repeat case_decide; cbn; lia).
      assert (0 <= l)%Z by lia. assert (u64 l < Z.of_nat n)%Z by lia. assert (l <= u)%Z by lia. assert (u64 u <= Z.of_nat n)%Z by lia. rewrite u64_id in * by lia.
      exists (seq (Z.to_nat l) (Z.to_nat u - Z.to_nat l)). apply F. unfold slice_range, from_end. rewrite !Z2Nat.id by lia. unfold l, u, slice_bounds in *. repeat case_decide; cbn in *; lia.
  Qed.
End proofs.
