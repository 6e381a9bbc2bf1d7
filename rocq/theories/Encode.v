(** C72: one-hot encoding, contingency tables, sequences, replacing values and binning. *)
From stdpp Require Import base numbers list list_numbers.
From Coq Require Import Lia QArith.Qround QArith.QArith QArith.Qabs Lqa Floats.SpecFloat.
From Verif Require Import CppBase Mem EncodeModel EncodeProofs EncodeProofs2.
Local Open Scope nat_scope.

(** * Specification *)
(** What one cell becomes: kept (-1), dropped (0), or n columns with a single one (n > 0). *)
Definition one_hot_block {V} (vzero vone : V) (index : V -> nat) (info : Z) (v : V) : list V :=
  if decide (info = -1)%Z then [v]
  else map (fun k => if decide (k = index v) then vone else vzero) (seq 0 (Z.to_nat info)).
(** Row by row, column by column. *)
Definition one_hot_rows {V} (vzero vone : V) (index : V -> nat) (info : list Z) (n : nat) (x : nat -> nat -> V) : list (list V) :=
  map (fun r => concat (map (fun c => one_hot_block vzero vone index (nth c info 0%Z) (x r c)) (seq 0 (length info)))) (seq 0 n).
(** A value that is encoded in n columns must be a number below n. *)
Definition encodable {V} (index : V -> nat) (info : Z) (v : V) : Prop := (0 < info)%Z -> index v < Z.to_nat info.
(** The code of a string: how many different strings precede its first occurrence in the column. *)
Definition code {K} `{!EqDecision K} (col : nat -> K) (r : nat) (n : nat) : Prop :=
  exists f, f <= r /\ col f = col r /\ (forall g, g < f -> col g <> col r) /\ n = length (remove_dups (map col (seq 0 f))).
(** The number of rows whose two coordinates are i and j. *)
Definition occurrences (x y : nat -> Z) (n i j : nat) : nat := length (filter (fun k => x k = Z.of_nat i /\ y k = Z.of_nat j) (seq 0 n)).
(** w + ... + w, k times. *)
Fixpoint times {W} (wzero : W) (wadd : W -> W -> W) (w : W) (k : nat) : W :=
  match k with 0 => wzero | S k => wadd (times wzero wadd w k) w end.
(** x has not passed the end of the sequence. *)
Definition within (inc stop x : Z) : Prop := if decide (0 < inc)%Z then (x <= stop)%Z else (stop <= x)%Z.
Definition within_q (inc stop x : Q) : Prop := ((0 < inc -> x <= stop) /\ (inc < 0 -> stop <= x))%Q.
(** Replacing: NaN as the pattern means NaN. *)
Definition nan {V} (eqb : V -> V -> bool) (v : V) : Prop := eqb v v = false.
Definition matches {V} (eqb : V -> V -> bool) (pat v : V) : Prop := eqb v pat = true \/ (nan eqb v /\ nan eqb pat).
Definition alike {V} (eqb : V -> V -> bool) (v w : V) : Prop := v = w \/ eqb v w = true \/ (nan eqb v /\ nan eqb w).
Definition replaced {V} (eqb : V -> V -> bool) (pat rep v v' : V) : Prop :=
  (matches eqb pat v -> alike eqb v' rep) /\ (~ matches eqb pat v -> v' = v).
(** The element of a CSR matrix at (r, c): the first one stored in row r for column c, or zero. *)
Definition csr_get {V} (vzero : V) (a : csr V) (r c : nat) : V :=
  let p := nth r (c_offs a) 0 in
  match list_find (fun j => nth j (c_cols a) 0 = c) (seq p (nth (S r) (c_offs a) 0 - p)) with
  | Some (_, j) => nth j (c_vals a) vzero
  | None => vzero
  end.

(** * One-hot encoding *)
Section onehot.
  Context {V : Type} (vzero vone : V) (index : V -> nat).
  Lemma enc_blocks info n x : rows_upto vzero vone index info x n = concat (one_hot_rows vzero vone index info n x).
  Proof. reflexivity. Qed.
  Lemma fits_encodable d v : (-1 <= d)%Z -> fits index d v <-> encodable index d v.
  Proof.
    intros Hd. unfold fits, encodable. split.
    - intros [->|[->|H]]; lia.
    - intros H. destruct (decide (d = -1)%Z); [by left|]. destruct (decide (d = 0)%Z); [by right; left|]. right; right. apply H. lia.
  Qed.
  Lemma width_pos info : Forall (fun d => -1 <= d)%Z info -> Exists (fun d => d <> 0)%Z info -> sum_list_with width info <> 0.
  Proof.
    intros HF HE. induction HE as [d info Hd|d info HE IH]; simpl.
    - apply Forall_cons_1 in HF as [Hd' _]. unfold width. case_decide; lia.
    - apply Forall_cons_1 in HF as [_ HF]. specialize (IH HF). lia.
  Qed.

  (** Every matrix, stored with any stride: rows keep their order, every row is the concatenation of the blocks of its
      cells; if some value cannot be encoded, the call fails. *)
  Theorem C72_one_hot junk a n info x :
    is_dense a n (length info) x -> Forall (fun d => -1 <= d)%Z info -> Exists (fun d => d <> 0)%Z info ->
    let m := sum_list_with (fun d => if decide (d = -1)%Z then 1 else Z.to_nat d) info in
    let rows := one_hot_rows vzero vone index info n x in
    Forall (fun row => length row = m) rows /\
    ((forall r c, r < n -> c < length info -> encodable index (nth c info 0%Z) (x r c)) ->
       one_hot vzero vone index junk a 1 info = Ok (m, concat rows)) /\
    ((exists r c, r < n /\ c < length info /\ ~ encodable index (nth c info 0%Z) (x r c)) ->
       one_hot vzero vone index junk a 1 info = Throw).
  Proof.
    intros Ha HF HE m rows.
    assert (Hnth : forall c, (-1 <= nth c info 0)%Z).
    { intros c. destruct (nth_lookup_or_length info c 0%Z) as [E|E]; [exact (Forall_lookup_1 _ _ _ _ HF E)|]. rewrite nth_overflow by done. lia. }
    split.
    - apply Forall_forall. intros row Hrow. apply elem_of_list_fmap in Hrow as (r & -> & _).
      change (length (enc vzero vone index info (x r) (length info)) = m). rewrite enc_length by done. rewrite take_ge by done. reflexivity.
    - destruct (one_hot_spec vzero vone index junk a n info x Ha HF (width_pos info HF HE)) as [[Hg E]|[(r & c & Hr & Hc & Hn) E]].
      + split; [intros _; exact E|]. intros (r & c & Hr & Hc & Hn). exfalso. apply Hn, fits_encodable; [apply Hnth|]. by apply Hg.
      + split; [|done]. intros Hg. exfalso. apply Hn, fits_encodable; [apply Hnth|]. by apply Hg.
  Qed.

  (** What is rejected whatever the data: not one row of instructions, not one instruction per column, instructions below
      -1, nothing but zeros. *)
  Theorem C72_one_hot_rejects junk a info_rows info :
    info_rows <> 1 \/ m_cols a <> length info \/ Exists (fun d => d < -1)%Z info \/ Forall (fun d => d = 0)%Z info ->
    one_hot vzero vone index junk a info_rows info = Throw.
  Proof.
    intros H. unfold one_hot. destruct (decide (info_rows <> 1)) as [|H1]; [done|]. destruct (decide (m_cols a <> length info)) as [|H2]; [done|].
    destruct H as [?|[?|[H|H]]]; [done|done| |].
    - by rewrite cols_Throw.
    - assert (E : one_hot_cols info 0 = Ok 0).
      { clear H2. induction H as [|d info -> H IH]; [done|]. simpl. exact IH. }
      rewrite E. cbn [obind]. by rewrite decide_True.
  Qed.

  Context {K : Type} `{!EqDecision K} (of_nat : nat -> V).
  Lemma rank_code (col : nat -> K) r : code col r (rank col r).
  Proof. destruct (first_row_spec col r) as (A & B & C). exists (first_row col r). done. Qed.
  Lemma code_rank (col : nat -> K) r n : code col r n -> n = rank col r.
  Proof. intros (f & Hf & E & Hm & ->). unfold rank. by rewrite (first_row_eq col r f). Qed.

  (** Strings, in matrices whose rows are adjacent: as if every string was replaced by its code. *)
  Theorem C72_one_hot_string junk junk' (a : dmat K) n info x (g : nat -> nat -> nat) :
    is_dense a n (length info) x -> m_skip a = length info -> Forall (fun d => -1 <= d)%Z info -> Exists (fun d => d <> 0)%Z info ->
    (forall r c, r < n -> c < length info -> code (fun r => x r c) r (g r c)) ->
    (forall k, k < n -> index (of_nat k) = k) ->
    let m := sum_list_with (fun d => if decide (d = -1)%Z then 1 else Z.to_nat d) info in
    ((forall r c, r < n -> c < length info -> (0 < nth c info 0)%Z -> g r c < Z.to_nat (nth c info 0%Z)) ->
       one_hot_string vzero vone index of_nat junk junk' a 1 info
       = Ok (m, concat (one_hot_rows vzero vone index info n (fun r c => of_nat (g r c))))) /\
    ((exists r c, r < n /\ c < length info /\ (0 < nth c info 0)%Z /\ Z.to_nat (nth c info 0%Z) <= g r c) ->
       one_hot_string vzero vone index of_nat junk junk' a 1 info = Throw).
  Proof.
    intros Ha Hs HF HE Hg Hid m.
    destruct (one_hot_string_spec vzero vone index of_nat junk junk' a n (length info) x 1 info Ha Hs) as (b & Hb & ->).
    assert (Hb' : is_dense (mkDM b 0 n (length info) (length info)) n (length info) (fun r c => of_nat (g r c))).
    { destruct Hb as (A & B & C & D & E). split; [done|]. split; [done|]. split; [done|]. split; [done|]. intros r c Hr Hc. rewrite E by done. f_equal. f_equal.
      symmetry. apply code_rank. by apply Hg. }
    assert (Hlt : forall r c, r < n -> c < length info -> g r c < n).
    { intros r c Hr Hc. destruct (Hg r c Hr Hc) as (f & Hf & _ & _ & ->).
      assert (length (remove_dups (map (fun r => x r c) (seq 0 f))) <= f); [|lia].
      rewrite <- (seq_length f 0) at 2. rewrite <- (map_length (fun r => x r c)). apply submseteq_length.
      apply NoDup_submseteq; [apply NoDup_remove_dups|]. intros k. by rewrite elem_of_remove_dups. }
    destruct (C72_one_hot junk _ n info _ Hb' HF HE) as (_ & H1 & H2). split.
    - intros H. apply H1. intros r c Hr Hc Hp. rewrite Hid by (by apply Hlt). by apply H.
    - intros (r & c & Hr & Hc & Hp & Hle). apply H2. exists r, c. split; [done|]. split; [done|]. intros Hen. specialize (Hen Hp). rewrite Hid in Hen by (by apply Hlt). lia.
  Qed.
  (** In a view of some columns of a wider matrix, the codes are written outside of the memory allocated for them, for every
      content, as soon as the rows are far enough apart. *)
  Theorem C72_one_hot_string_view_refuted junk junk' (a : dmat K) info_rows info :
    0 < m_rows a -> 0 < m_cols a -> m_rows a * m_cols a <= (m_rows a - 1) * m_skip a + (m_cols a - 1) ->
    one_hot_string vzero vone index of_nat junk junk' a info_rows info = UB.
  Proof. apply one_hot_string_ub. Qed.
End onehot.

(** Columns: kept, dropped, three values; 0-based codes. A 2 x 3 matrix inside a matrix with 4 columns. *)
Theorem C72_one_hot_nonvacuous :
  is_dense (mkDM [5; 9; 2; 0; 6; 8; 0; 0]%Z 0 2 3 4) 2 3 (fun r c => nth (r * 4 + c) [5; 9; 2; 0; 6; 8; 0; 0]%Z 0%Z) /\
  one_hot 0%Z 1%Z Z.to_nat (fun _ => 77%Z) (mkDM [5; 9; 2; 0; 6; 8; 0; 0]%Z 0 2 3 4) 1 [-1; 0; 3]%Z
    = Ok (4, [5; 0; 0; 1; 6; 1; 0; 0]%Z) /\
  one_hot_string 0%Z 1%Z Z.to_nat Z.of_nat (fun _ => 77%Z) (fun _ => 77%Z) (mkDM [true; false; true] 0 3 1 1) 1 [2]%Z
    = Ok (2, [1; 0; 0; 1; 1; 0]%Z).
Proof.
  split; [|split; vm_compute; reflexivity]. unfold is_dense. cbn [m_rows m_cols m_skip m_off m_buf]. split; [done|]. split; [done|]. split; [lia|]. split; [right; simpl; lia|].
  intros r c Hr Hc. destruct r as [|[|r]]; [| |lia]; destruct c as [|[|[|c]]]; try lia; reflexivity.
Qed.

(** * Contingency tables *)
Section ctable.
  Context {W : Type} (wzero : W) (wadd : W -> W -> W).
  (** Two columns stored without gaps, with coordinates that are not negative: cell (i, j) is the weight added as often as
      the pair (i, j) occurs; sizes that are not given are the smallest that fit, pairs outside given sizes are ignored. *)
  Theorem C72_ctable lhs rhs n x y w rows cols :
    is_dense lhs n 1 (fun k _ => x k) -> is_dense rhs n 1 (fun k _ => y k) -> m_skip lhs = 1 -> m_skip rhs = 1 ->
    (forall i, i < n -> (0 <= x i /\ 0 <= y i)%Z) -> 0 < n \/ (0 <= rows /\ 0 <= cols)%Z ->
    exists R C b, ctable wzero wadd lhs rhs w rows cols = Ok (R, C, b) /\
      ((0 <= rows)%Z -> Z.of_nat R = rows) /\ ((rows < 0)%Z -> (forall k, k < n -> (x k < Z.of_nat R)%Z) /\ exists k, k < n /\ (x k + 1 = Z.of_nat R)%Z) /\
      ((0 <= cols)%Z -> Z.of_nat C = cols) /\ ((cols < 0)%Z -> (forall k, k < n -> (y k < Z.of_nat C)%Z) /\ exists k, k < n /\ (y k + 1 = Z.of_nat C)%Z) /\
      length b = R * C /\ forall i j, i < R -> j < C -> b !! (i * C + j) = Some (times wzero wadd w (occurrences x y n i j)).
  Proof.
    intros Hx Hy Sx Sy Hp Hor. destruct (ctable_spec wzero wadd lhs rhs n x y w rows cols Hx Hy Sx Sy Hp Hor) as (R & C & b & E & A1 & A2 & B1 & B2 & Hl & Hb).
    exists R, C, b. split; [done|]. split; [done|]. split; [done|]. split; [done|]. split; [done|]. split; [done|].
    intros i j Hi Hj. rewrite Hb by done. f_equal. change (hits x y n i j) with (occurrences x y n i j).
    generalize (occurrences x y n i j) as k. intros k. induction k as [|k IH]; [done|]. cbn [times]. rewrite <- IH. done.
  Qed.
  Theorem C72_ctable_rejects lhs rhs w rows cols :
    m_cols lhs <> 1 \/ m_cols rhs <> 1 \/ m_rows lhs <> m_rows rhs -> ctable wzero wadd lhs rhs w rows cols = Throw.
  Proof. intros H. unfold ctable. case_decide; [done|]. case_decide; [done|]. lia. Qed.

  (** Negative coordinates: written before the start of the result... *)
  Theorem C72_ctable_negative_refuted lhs rhs x y w rows cols :
    is_dense lhs 1 1 (fun _ _ => x) -> is_dense rhs 1 1 (fun _ _ => y) ->
    (0 <= rows)%Z -> (x < 0)%Z -> (y < cols)%Z -> (0 <= cols)%Z -> ctable wzero wadd lhs rhs w rows cols = UB.
  Proof.
    intros Hx Hy Hr Hn Hc Hcols. pose proof Hx as (Rx & Cx & _ & _ & Ex). pose proof Hy as (Ry & Cy & _ & _ & Ey). unfold ctable.
    rewrite decide_False by lia. rewrite decide_False by lia. rewrite Rx. rewrite (decide_False (P := (rows < 0)%Z)) by lia. rewrite (decide_False (P := (cols < 0)%Z)) by lia.
    cbn [obind]. rewrite decide_False by lia. rewrite decide_False by lia. unfold for_up. cbn [forn Nat.sub].
    unfold coord. rewrite (rd_Ok _ _ x). 2: { rewrite <- (Ex 0 0) by lia. f_equal. lia. } cbn [obind].
    rewrite (rd_Ok _ _ y). 2: { rewrite <- (Ey 0 0) by lia. f_equal. lia. } cbn [obind].
    rewrite decide_True by lia. unfold bump. rewrite decide_False by nia. done.
  Qed.
  (** An empty input with a size to be derived from it. *)
  Theorem C72_ctable_empty_refuted lhs rhs w rows cols :
    m_cols lhs = 1 -> m_cols rhs = 1 -> m_rows lhs = 0 -> m_rows rhs = 0 -> (rows < 0 \/ cols < 0)%Z ->
    ctable wzero wadd lhs rhs w rows cols = UB.
  Proof.
    intros H1 H2 H3 H4 H5. unfold ctable. rewrite decide_False by lia. rewrite decide_False by lia. rewrite H3.
    destruct (decide (rows < 0)%Z); [done|]. cbn [obind]. rewrite decide_True by lia. done.
  Qed.
End ctable.
(** ... or into another cell: the pair (1, -1) is counted in row 0, column 2. *)
Theorem C72_ctable_negative_cell_refuted :
  is_dense (mkDM [1]%Z 0 1 1 1) 1 1 (fun _ _ => 1%Z) /\ is_dense (mkDM [-1]%Z 0 1 1 1) 1 1 (fun _ _ => (-1)%Z) /\
  ctable 0%Z Z.add (mkDM [1]%Z 0 1 1 1) (mkDM [-1]%Z 0 1 1 1) 1%Z 2 3 = Ok (2, 3, [0; 0; 1; 0; 0; 0]%Z).
Proof.
  split; [|split; [|vm_compute; reflexivity]]; unfold is_dense; cbn; (split; [done|]); (split; [done|]); (split; [lia|]); (split; [lia|]);
    intros [|r] [|c] Hr Hc; try lia; reflexivity.
Qed.
(** The two columns of the matrix (0, 1), (0, 1), taken as views: the pair (0, 1) occurs twice, but the table counts
    (0, 1) and (1, 0) once. *)
Theorem C72_ctable_view_refuted :
  let X := [0; 1; 0; 1]%Z in let lhs := mkDM X 0 2 1 2 in let rhs := mkDM X 1 2 1 2 in
  is_dense lhs 2 1 (fun _ _ => 0%Z) /\ is_dense rhs 2 1 (fun _ _ => 1%Z) /\
  occurrences (fun _ => 0%Z) (fun _ => 1%Z) 2 0 1 = 2 /\
  ctable 0%Z Z.add lhs rhs 1%Z 2 2 = Ok (2, 2, [0; 1; 1; 0]%Z) /\ times 0%Z Z.add 1%Z 2 = 2%Z.
Proof.
  cbn zeta. split; [|split; [|split; [vm_compute; reflexivity|split; vm_compute; reflexivity]]]; unfold is_dense; cbn; (split; [done|]); (split; [done|]); (split; [lia|]); (split; [lia|]);
    intros [|[|r]] [|c] Hr Hc; try lia; reflexivity.
Qed.
Theorem C72_ctable_nonvacuous :
  ctable 0%Z Z.add (mkDM [0; 2; 0; 1]%Z 0 4 1 1) (mkDM [1; 0; 1; 1]%Z 0 4 1 1) 5%Z (-1) (-1) = Ok (3, 2, [0; 10; 0; 5; 5; 0]%Z) /\
  ctable 0%Z Z.add (mkDM [0; 2; 0; 1]%Z 0 4 1 1) (mkDM [1; 0; 1; 1]%Z 0 4 1 1) 5%Z 2 (-1) = Ok (2, 2, [0; 10; 0; 5]%Z).
Proof. split; vm_compute; reflexivity. Qed.

(** * Sequences *)
(** Signed integers, as long as the distance and the number one step after the last element can be represented: the
    elements are start, start + inc, ... up to the last one that has not passed the end; none in the wrong direction. *)
Theorem C72_seq_int hi junk start stop inc :
  let lo := (- hi - 1)%Z in
  inc <> 0%Z -> (Z.abs (stop - start) <= hi)%Z -> (Z.abs inc <= hi)%Z ->
  (forall i : nat, (if decide (0 < inc)%Z then start <= stop else stop <= start)%Z -> within inc stop (start + Z.of_nat i * inc)%Z ->
     (lo <= start + (Z.of_nat i + 1) * inc <= hi)%Z) ->
  exists n, seq_kernel (int_arith lo hi) junk start stop inc = Ok (map (fun i => start + Z.of_nat i * inc)%Z (seq 0 n)) /\
    forall i, i < n <-> within inc stop (start + Z.of_nat i * inc)%Z.
Proof. intros lo Hinc Hd Hi Hstep. apply seq_int_spec; [done|lia|lia|lia|lia|exact Hstep]. Qed.
Theorem C72_seq_rejects {A} (O : arith A) junk start stop inc :
  a_nan O inc = true \/ a_nan O start = true \/ a_nan O stop = true \/ a_iszero O inc = true -> seq_kernel O junk start stop inc = Throw.
Proof.
  intros H. unfold seq_kernel. destruct (a_nan O inc), (a_nan O start), (a_nan O stop); try done. simpl.
  destruct (a_iszero O inc); [done|]. by destruct H as [?|[?|[?|?]]].
Qed.
(** Without the second condition: a sequence whose elements all can be represented overflows. *)
Theorem C72_seq_int_overflow_refuted hi junk inc : (0 < inc <= hi)%Z ->
  seq_kernel (int_arith (- hi - 1) hi) junk hi hi inc = UB.
Proof.
  intros Hi. unfold seq_kernel, int_arith. cbn [a_nan a_iszero a_ltb a_zero a_eps a_add a_sub a_abs a_steps orb].
  rewrite (proj2 (Z.eqb_neq inc 0)) by lia. rewrite Z.ltb_irrefl. cbn [andb orb]. rewrite Z.sub_diag. rewrite in_int_Ok by lia. cbn [obind].
  rewrite in_int_Ok by lia. cbn [obind]. rewrite in_int_Ok by lia. cbn [obind]. rewrite Z.quot_0_l by lia. change (Z.to_nat 0 + 1) with 1.
  unfold for_up. change (1 - 0) with 1. cbn [forn fst snd]. rewrite wr_Ok by (rewrite fresh_length; lia). cbn [obind fst snd]. unfold in_int. rewrite decide_False by lia. done.
Qed.
(** Exact arithmetic: the same, unless an element passes the end by at most 10^-13. *)
Theorem C72_seq_exact junk start stop inc :
  let elem i := (start + inject_Z (Z.of_nat i) * inc)%Q in
  ~ (inc == 0)%Q -> (forall i, within_q inc stop (elem i) \/ (1 # 10 ^ 13 < Qabs (elem i - stop))%Q) ->
  exists b, seq_kernel q_arith junk start stop inc = Ok b /\
    (forall i q, b !! i = Some q -> (q == elem i)%Q) /\
    forall i, i < length b <-> within_q inc stop (elem i).
Proof.
  intros elem Hinc Hgap.
  assert (Heq : forall x, q_reaches inc stop x <-> within_q inc stop x).
  { intros x. unfold q_reaches, within_q. destruct (Qltb 0 inc) eqn:E.
    - apply Qltb_lt in E. split; [intros H; split; [done|intros; exfalso; lra]|intros [H _]; by apply H].
    - apply Qltb_ge in E. split; [intros H; split; [intros; exfalso; lra|done]|intros [_ H]; apply H].
      destruct (Q_dec inc 0) as [[?|?]|?]; [done|exfalso; lra|done]. }
  destruct (seq_q_spec junk start stop inc Hinc) as (b & E & H1 & H2).
  - intros i. destruct (Hgap i) as [H|H]; [left; by apply Heq|right; exact H].
  - exists b. split; [done|]. split; [done|]. intros i. rewrite H2. apply Heq.
Qed.
(** Small steps: an element behind the end is returned. *)
Theorem C72_seq_exact_refuted junk :
  exists b q, seq_kernel q_arith junk 0%Q (3 # 2 * 10 ^ 14) (1 # 10 ^ 14) = Ok b /\ b !! 2 = Some q /\ (3 # 2 * 10 ^ 14 < q)%Q.
Proof.
  exists [0; 0 + (1 # 10 ^ 14); 0 + (1 # 10 ^ 14) + (1 # 10 ^ 14)]%Q. eexists. split; [vm_compute; reflexivity|]. split; [reflexivity|]. reflexivity.
Qed.
(** Doubles: seq(0, 120, 2.4) stops at 117.6, although 50 times the double 2.4 is at most 120. *)
Definition d_2_4 : spec_float := S754_finite false 5404319552844595 (-51).
Definition d_120 : spec_float := S754_finite false 8444249301319680 (-46).
Theorem C72_seq_double_refuted :
  exists b, seq_kernel f64_arith (fun _ => S754_nan) (S754_zero false) d_120 d_2_4 = Ok b /\ length b = 50 /\
    (50 * (5404319552844595 * 2 ^ (-51)) <= 120)%Q /\ (8444249301319680 * 2 ^ (-46) == 120)%Q.
Proof.
  eexists. split; [vm_compute; reflexivity|]. split; [vm_compute; reflexivity|]. split; vm_compute; congruence.
Qed.
Theorem C72_seq_nonvacuous :
  seq_kernel (int_arith (-128) 127) (fun _ => 0%Z) 3%Z 10%Z 2%Z = Ok [3; 5; 7; 9]%Z /\
  seq_kernel (int_arith (-128) 127) (fun _ => 0%Z) 10%Z 3%Z (-7)%Z = Ok [10; 3]%Z /\
  seq_kernel (int_arith (-128) 127) (fun _ => 0%Z) 3%Z 10%Z (-2)%Z = Ok [].
Proof. split; [|split]; vm_compute; reflexivity. Qed.

(** * Replacing values *)
Section replace.
  Context {V : Type} (eqb : V -> V -> bool) (vzero : V).
  Context (eqb_sym : forall v w, eqb v w = eqb w v) (eqb_trans : forall u v w, eqb u v = true -> eqb v w = true -> eqb u w = true).
  Lemma subst_replaced pat rep v : replaced eqb pat rep v (subst_val eqb pat rep v).
  Proof.
    assert (Hhit : hit eqb pat v = true <-> matches eqb pat v).
    { unfold hit, matches, isnan, nan. destruct (eqb pat pat) eqn:Ep; cbn [negb].
      - split; [by left|]. intros [H|[_ H]]; [done|congruence].
      - rewrite negb_true_iff. split; [by right|]. intros [H|[H _]]; [|done]. rewrite (eqb_trans pat v pat) in Ep; [done|by rewrite eqb_sym|done]. }
    unfold replaced, subst_val, nothing_to_do, isnan. destruct (negb (eqb rep rep) && negb (eqb pat pat) || eqb pat rep) eqn:En.
    - split; [|done]. intros [H|[H1 H2]].
      + apply orb_true_iff in En as [En|En].
        * apply andb_true_iff in En as [_ En]. apply negb_true_iff in En. rewrite (eqb_trans pat v pat) in En; [done|by rewrite eqb_sym|done].
        * right. left. exact (eqb_trans _ _ _ H En).
      + right. right. split; [done|]. unfold nan in *. apply orb_true_iff in En as [En|En]; [apply andb_true_iff in En as [En _]; by apply negb_true_iff|].
        rewrite (eqb_trans pat rep pat) in H2; [done|done|by rewrite eqb_sym].
    - destruct (hit eqb pat v) eqn:Eh; rewrite <- Hhit; [split; [by left|done]|split; [done|done]].
  Qed.

  (** Dense matrices, stored with any stride. *)
  Theorem C72_replace_dense junk a n m x pat rep : is_dense a n m x -> n * m <> 0 ->
    exists b, replace_dense eqb junk a pat rep = Ok (Some b) /\ length b = n * m /\
      forall r c, r < n -> c < m -> exists v, b !! (r * m + c) = Some v /\ replaced eqb pat rep (x r c) v.
  Proof.
    intros Ha Hnm. destruct (replace_dense_spec eqb junk a n m x pat rep Ha Hnm) as (b & E & Hl & Hb).
    exists b. split; [done|]. split; [done|]. intros r c Hr Hc. exists (subst_val eqb pat rep (x r c)). split; [by apply Hb|apply subst_replaced].
  Qed.
  Lemma find_ext (P Q : nat -> Prop) `{!forall j, Decision (P j)} `{!forall j, Decision (Q j)} l :
    (forall j, j ∈ l -> P j <-> Q j) -> list_find P l = list_find Q l.
  Proof.
    induction l as [|j l IH]; intros Hext; [done|]. simpl. pose proof (Hext j (elem_of_list_here _ _)) as Hj.
    destruct (decide (P j)), (decide (Q j)); [done|tauto|tauto|]. rewrite IH; [done|]. intros i Hi. apply Hext. by right.
  Qed.
  (** CSR matrices that are not views that start at a later row; the pattern is not zero. *)
  Theorem C72_replace_csr junk junkn junko a pat rep :
    csr_wf a -> nth 0 (c_offs a) 0 = 0 -> eqb pat vzero = false -> eqb vzero vzero = true -> nth (c_rows a) (c_offs a) 0 <> 0 ->
    exists a', replace_csr eqb vzero junk junkn junko a pat rep = Ok (Some a') /\ c_rows a' = c_rows a /\ c_ncols a' = c_ncols a /\ csr_wf a' /\
      forall r c, r < c_rows a -> replaced eqb pat rep (csr_get vzero a r c) (csr_get vzero a' r c).
  Proof.
    intros Hw H0 Hp Hz Hnz. destruct (replace_csr_spec eqb vzero junk junkn junko a pat rep Hw H0 Hp Hnz) as (a' & E & A & B & C & D & F).
    exists a'. split; [done|]. split; [done|]. split; [done|]. pose proof Hw as (L & Hm & Lv & Lc). split.
    - split; [by rewrite C, A|]. split; [by rewrite C, A|]. rewrite D, F, C, A. rewrite map_length, !take_length. lia.
    - intros r c Hr. unfold csr_get. rewrite C. set (p := nth r (c_offs a) 0). set (p' := nth (S r) (c_offs a) 0). set (nnz := nth (c_rows a) (c_offs a) 0) in *.
      assert (Hpn : p' <= nnz) by (apply (off_mono a (S r) (c_rows a)); [done|lia|lia]). assert (Hpp : p <= p') by (apply Hm; done).
      assert (Hcol : forall j, j < nnz -> nth j (c_cols a') 0 = nth j (c_cols a) 0).
      { intros j Hj. rewrite D. rewrite !nth_lookup. by rewrite lookup_take. }
      assert (Hfind : list_find (fun j => nth j (c_cols a') 0 = c) (seq p (p' - p)) = list_find (fun j => nth j (c_cols a) 0 = c) (seq p (p' - p))).
      { apply find_ext. intros j Hj. apply elem_of_seq in Hj. rewrite Hcol by lia. done. }
      rewrite Hfind. destruct (list_find (fun j => nth j (c_cols a) 0 = c) (seq p (p' - p))) as [[i j]|] eqn:Ef.
      + apply list_find_Some in Ef as (Hj & _). apply lookup_seq in Hj as [-> Hj]. rewrite F. rewrite !nth_lookup.
        destruct (lookup_lt_is_Some_2 (c_vals a) (p + i)) as [v Hv]; [lia|]. rewrite Hv. cbn [default].
        assert (Hv' : map (subst_val eqb pat rep) (take nnz (c_vals a)) !! (p + i) = Some (subst_val eqb pat rep v)).
        { rewrite list_lookup_fmap, lookup_take by lia. by rewrite Hv. }
        rewrite Hv'. apply subst_replaced.
      + split; [|done]. intros [H|[H _]]; [rewrite eqb_sym in H; congruence|unfold nan in H; congruence].
  Qed.
  (** Nothing is returned for a matrix without elements (dense) or without stored elements (CSR). *)
  Theorem C72_replace_empty_refuted junk junkn junko a (c : csr V) pat rep :
    m_rows a * m_cols a = 0 -> csr_wf c -> nth (c_rows c) (c_offs c) 0 = nth 0 (c_offs c) 0 -> eqb pat vzero = false ->
    replace_dense eqb junk a pat rep = Ok None /\ replace_csr eqb vzero junk junkn junko c pat rep = Ok None.
  Proof.
    intros Ha Hw Hn Hp. split; [unfold replace_dense; by rewrite decide_True|]. unfold replace_csr. rewrite Hp. rewrite (rd_off c (c_rows c) Hw) by done. cbn [obind].
    rewrite (rd_off c 0 Hw) by lia. cbn [obind]. rewrite decide_True by lia. done.
  Qed.
  (** Views that start behind a stored element: if the call returns, the result's offsets point outside of its arrays:
      reading the last element of the result is undefined behaviour. *)
  Theorem C72_replace_csr_view_refuted junk junkn junko a pat rep res :
    csr_wf a -> 0 < nth 0 (c_offs a) 0 < nth (c_rows a) (c_offs a) 0 ->
    replace_csr eqb vzero junk junkn junko a pat rep = Ok (Some res) ->
    nth (c_rows res) (c_offs res) 0 = nth (c_rows a) (c_offs a) 0 /\ rd (c_vals res) (nth (c_rows res) (c_offs res) 0 - 1) = UB.
  Proof.
    intros Hw H0. pose proof Hw as (L & Hm & Lv & Lc). unfold replace_csr. destruct (eqb pat vzero); [done|].
    rewrite (rd_off a (c_rows a) Hw) by done. cbn [obind]. rewrite (rd_off a 0 Hw) by lia. cbn [obind]. rewrite decide_False by lia.
    set (o := nth 0 (c_offs a) 0) in *. set (e := nth (c_rows a) (c_offs a) 0) in *.
    rewrite copy_prefix by lia. cbn [obind]. rewrite copy_prefix by lia. cbn [obind]. rewrite copy_prefix by lia. cbn [obind].
    rewrite (take_ge (c_offs a)) by lia. set (src := take (e - o) (c_vals a)). assert (Ls : length src = e - o) by (unfold src; rewrite take_length; lia).
    assert (Hfin : forall (vals : list V) (cols : list nat), length vals = e - o ->
      nth (c_rows a) (c_offs (mkC vals cols (c_offs a) (c_rows a) (c_ncols a))) 0 = e /\ rd vals (e - 1) = UB).
    { intros vals cols Hl. split; [done|]. unfold rd. rewrite lookup_ge_None_2 by lia. done. }
    destruct (nothing_to_do eqb pat rep).
    - intros [= <-]. cbn [c_rows c_vals c_offs]. exact (Hfin _ (take (e - o) (c_cols a)) Ls).
    - destruct (for_up 0 (c_rows a) _ src) as [b| |] eqn:E; cbn [obind]; [|done|done]. intros [= <-]. cbn [c_rows c_vals c_offs].
      apply (Hfin b (take (e - o) (c_cols a))). rewrite <- Ls.
      assert (G : forall n lo s s', forn n lo (fun r b => let* p := rd (c_offs a) r in let* q := rd (c_offs a) r in let* p' := rd (c_offs a) (r + 1) in
            for_up 0 (p' - p) (fun c b => let* v := rd (c_vals a) (p + c) in if hit eqb pat v then wr b (q + c) rep else Ok b) b) s = Ok s' -> length s' = length s).
      { intros n. induction n as [|n IH]; intros lo s s'; cbn [forn]; [by intros [= ->]|].
        destruct (rd (c_offs a) lo) as [p| |]; cbn [obind]; [|done|done]. destruct (rd (c_offs a) (lo + 1)) as [p'| |]; cbn [obind]; [|done|done].
        destruct (for_up 0 (p' - p) _ s) as [s1| |] eqn:E1; cbn [obind]; [|done|done]. intros H. rewrite (IH _ _ _ H). clear H.
        revert E1. unfold for_up. generalize 0 as l, (p' - p - 0) as k. intros l k. revert l s. induction k as [|k IHk]; intros l s; cbn [forn]; [by intros [= ->]|].
        destruct (rd (c_vals a) (p + l)) as [v| |]; cbn [obind]; [|done|done]. destruct (hit eqb pat v).
        - unfold wr. case_decide; cbn [obind]; [|done]. intros H'. rewrite (IHk _ _ H'). apply insert_length.
        - cbn [obind]. intros H'. exact (IHk _ _ H'). }
      exact (G _ _ _ _ E).
  Qed.
End replace.
Theorem C72_replace_nonvacuous :
  let eqb (a b : option Z) := match a, b with Some x, Some y => (x =? y)%Z | _, _ => false end in
  replace_dense eqb (fun _ => None) (mkDM [Some 1; None; Some 2; Some 9; Some 1; Some 1]%Z 0 2 2 3) None (Some 7%Z) = Ok (Some [Some 1; Some 7; Some 9; Some 1]%Z) /\
  replace_csr eqb (Some 0%Z) (fun _ => None) (fun _ => 0) (fun _ => 0) (mkC [Some 4; Some 5; Some 4]%Z [0; 2; 1] [0; 2; 3] 2 3) (Some 4%Z) (Some 8%Z)
    = Ok (Some (mkC [Some 8; Some 5; Some 8]%Z [0; 2; 1] [0; 2; 3] 2 3)) /\
  csr_wf (mkC [Some 4; Some 5; Some 4]%Z [0; 2; 1] [0; 2; 3] 2 3) /\
  csr_get (Some 0%Z) (mkC [Some 8; Some 5; Some 8]%Z [0; 2; 1] [0; 2; 3] 2 3) 1 1 = Some 8%Z /\
  csr_get (Some 0%Z) (mkC [Some 8; Some 5; Some 8]%Z [0; 2; 1] [0; 2; 3] 2 3) 1 0 = Some 0%Z /\
  replace_csr eqb (Some 0%Z) (fun _ => None) (fun _ => 0) (fun _ => 0) (mkC [Some 4; Some 5; Some 4]%Z [0; 2; 1] [2; 3] 1 3) (Some 6%Z) (Some 8%Z)
    = Ok (Some (mkC [Some 4]%Z [0] [2; 3] 1 3)).
Proof.
  cbn zeta. split; [vm_compute; reflexivity|]. split; [vm_compute; reflexivity|]. split; [|split; [vm_compute; reflexivity|split; vm_compute; reflexivity]].
  split; [done|]. cbn. split; [|lia]. intros [|[|r]] Hr; cbn; lia.
Qed.

(** * Binning, in exact arithmetic *)
(** Every value gets the bin, of N bins of equal size between min and max, that contains it; lower bounds are exclusive,
    upper bounds inclusive; values outside of the range get the first and the last bin. *)
Theorem C72_bin rlo rhi junk a n m x N mn mx :
  is_dense a n m x -> (0 < N)%Z -> (mn < mx)%Q -> (rlo <= 0 <= rhi)%Z ->
  let size := ((mx - mn) / inject_Z N)%Q in
  (forall r c, r < n -> c < m -> (x r c - mn <= inject_Z (rhi + 1) * size)%Q) ->
  exists b, bin_kernel rlo rhi junk a N mn mx = Ok b /\ length b = n * m /\
    forall r c, r < n -> c < m -> exists k, b !! (r * m + c) = Some k /\ (0 <= k < N)%Z /\
      ((x r c <= mn)%Q -> k = 0%Z) /\ ((mx <= x r c)%Q -> k = (N - 1)%Z) /\
      ((mn < x r c)%Q -> (x r c <= mx)%Q -> (mn + inject_Z k * size < x r c /\ x r c <= mn + inject_Z (k + 1) * size)%Q).
Proof.
  intros Ha HN Hm Hr size Hx. pose proof Ha as (Rr & Rc & _). unfold bin_kernel. rewrite decide_False by lia.
  rewrite (proj2 (Qltb_ge mx mn)) by lra. assert (Ene : Qeq_bool mn mx = false).
  { destruct (Qeq_bool mn mx) eqn:E; [|done]. apply Qeq_bool_iff in E. exfalso. lra. }
  rewrite Ene. cbn [andb]. rewrite Rr, Rc. fold size.
  assert (Hv : forall r c, exists k, r < n -> c < m -> bin_value rlo rhi N mn size (x r c) = Ok k /\ (0 <= k < N)%Z /\
      ((x r c <= mn)%Q -> k = 0%Z) /\ ((mx <= x r c)%Q -> k = (N - 1)%Z) /\
      ((mn < x r c)%Q -> (x r c <= mx)%Q -> (mn + inject_Z k * size < x r c /\ x r c <= mn + inject_Z (k + 1) * size)%Q)).
  { intros r c. destruct (decide (r < n /\ c < m)) as [[Hr' Hc']|Hn]; [|exists 0%Z; intros; exfalso; apply Hn; done].
    destruct (bin_value_spec rlo rhi N mn mx (x r c) HN Hm) as (k & Hk); [lia|intros _; by apply Hx|lia|]. exists k. intros _ _. exact Hk. }
  destruct (for2_tabulate n m (fun r c b => let* v := dm_at a r c in let* z := bin_value rlo rhi N mn size v in wr b (r * m + c) z)
    (fun r c => match bin_value rlo rhi N mn size (x r c) with Ok k => k | _ => 0%Z end) (fresh junk (n * m))) as (b & E & Hl & Hb).
  - apply fresh_length.
  - intros r c b Hr' Hc' _. rewrite (dm_at_Ok a n m x r c Ha Hr' Hc'). cbn [obind]. destruct (Hv r c) as (k & Hk). destruct (Hk Hr' Hc') as [Ek _]. by rewrite Ek.
  - exists b. split; [done|]. split; [done|]. intros r c Hr' Hc'. destruct (Hv r c) as (k & Hk). destruct (Hk Hr' Hc') as [Ek Hk']. exists k. split; [|done].
    rewrite Hb by done. by rewrite Ek.
Qed.
(** min = max: one bin for all values. *)
Theorem C72_bin_point rlo rhi junk a n m x mn mx : is_dense a n m x -> (mn == mx)%Q ->
  exists b, bin_kernel rlo rhi junk a 1 mn mx = Ok b /\ length b = n * m /\ forall r c, r < n -> c < m -> b !! (r * m + c) = Some 0%Z.
Proof.
  intros (Rr & Rc & _) Hm. unfold bin_kernel. rewrite decide_False by lia. rewrite (proj2 (Qltb_ge mx mn)) by lra.
  rewrite (proj2 (Qeq_bool_iff mn mx) Hm). cbn [andb]. rewrite bool_decide_eq_false_2 by lia. rewrite bool_decide_eq_true_2 by done. rewrite Rr, Rc.
  destruct (for2_tabulate n m (fun r c b => wr b (r * m + c) 0%Z) (fun _ _ => 0%Z) (fresh junk (n * m))) as (b & E & Hl & Hb); [apply fresh_length|done|].
  exists b. done.
Qed.
Theorem C72_bin_rejects rlo rhi junk a N mn mx :
  (N <= 0)%Z \/ (mx < mn)%Q \/ ((mn == mx)%Q /\ (1 < N)%Z) -> bin_kernel rlo rhi junk a N mn mx = Throw.
Proof.
  intros H. unfold bin_kernel. case_decide; [done|]. destruct (Qltb mx mn) eqn:E; [done|]. apply Qltb_ge in E.
  destruct H as [H|[H|[H1 H2]]]; [lia|exfalso; lra|]. rewrite (proj2 (Qeq_bool_iff mn mx) H1). cbn [andb]. by rewrite bool_decide_eq_true_2.
Qed.
(** Values far above max: the number of the bin is converted to the value type of the result before it is limited. For
    every integer type, every range and every number of bins, some value leads to undefined behaviour. *)
Theorem C72_bin_range_refuted rlo rhi N mn mx : (0 < N)%Z -> (mn < mx)%Q -> (rlo <= 0 <= rhi)%Z ->
  exists v, bin_value rlo rhi N mn ((mx - mn) / inject_Z N) v = UB.
Proof.
  intros HN Hm Hr. set (size := ((mx - mn) / inject_Z N)%Q). assert (HNq : (0 < inject_Z N)%Q) by (change 0%Q with (inject_Z 0); by rewrite <- Zlt_Qlt).
  assert (Hs : (0 < size)%Q) by (apply Qlt_shift_div_l; lra). exists (mn + inject_Z (rhi + 2) * size)%Q. unfold bin_value.
  assert (Hp : (0 < inject_Z (rhi + 2) * size)%Q).
  { rewrite <- (Qmult_0_l size). apply Qmult_lt_compat_r; [done|]. change 0%Q with (inject_Z 0). rewrite <- Zlt_Qlt. lia. }
  destruct (Qle_bool _ _) eqn:E; [apply Qle_bool_iff in E; exfalso; lra|].
  assert (Ec : Qceiling ((mn + inject_Z (rhi + 2) * size - mn) / size) = (rhi + 2)%Z).
  { rewrite (Qceiling_comp _ (inject_Z (rhi + 2))); [apply Qceiling_Z|]. field. lra. }
  rewrite Ec. unfold in_int. rewrite decide_False by lia. done.
Qed.
Theorem C72_bin_nonvacuous :
  bin_kernel (-128) 127 (fun _ => 0%Z) (mkDM [0; 5; 10; 11; 20; 99; -3 # 1; 7]%Q 0 2 3 4) 2 0%Q 20%Q = Ok [0; 0; 0; 1; 1; 0]%Z.
Proof. vm_compute. reflexivity. Qed.

Print Assumptions C72_one_hot.
Print Assumptions C72_one_hot_string.
Print Assumptions C72_ctable.
Print Assumptions C72_seq_int.
Print Assumptions C72_seq_exact.
Print Assumptions C72_replace_csr.
Print Assumptions C72_bin.
