(** C86: indexing in DaphneDSL. *)
From stdpp Require Import base numbers sorting list list_numbers.
From Coq Require Import ZArith Lia.
From Verif Require Import CppBase Mem CSRModel CSRSpec SparseSpec CastModel CastProofs ReorgModel Reorg InsertModel Insert BitmapModel Bitmap ExtractModel Extract IndexingModel IndexingSpec IndexingProofs.
Local Open Scope nat_scope.

Section theorems.
  Context {V : Type} `{Val V} (junk : nat -> list V).
  Implicit Types (a i : dmat V) (s : @vars V).
  (** ** Reading *)
  (** X[rows, cols] consists of the cells in the addressed rows and columns, in the order they are addressed. *)
  Theorem C86_read a n m x rows cols rs cs : junk_ok junk -> is_dense a n m x -> small n -> small m -> clean rows -> clean cols ->
    addressed n rows rs -> addressed m cols cs ->
    exists res, right_index junk rows cols a = Ok res /\ is_dense res (length rs) (length cs) (fun r c => x (rs !!! r) (cs !!! c)).
  Proof.
    intros Hj Ha Hn Hm C1 C2 A1 A2. unfold right_index. destruct (right_rows_ok junk Hj rows a n m x rs Ha Hn C1 A1) as (b & -> & D). cbn [obind].
    destruct (right_cols_ok junk Hj cols b (length rs) m _ cs D Hm C2 A2) as (res & -> & D2). exists res. split; [done|]. exact D2.
  Qed.
  (** A position or range out of bounds is an error. *)
  Theorem C86_read_error a n m x rows cols : junk_ok junk -> is_dense a n m x -> small n -> small m -> clean rows -> clean cols -> assignable rows -> assignable cols ->
    (~ exists rs cs, addressed n rows rs /\ addressed m cols cs) -> right_index junk rows cols a = Throw.
  Proof.
    intros Hj Ha Hn Hm C1 C2 A1 A2 Hno. unfold right_index. destruct (addressed_dec rows n Hn C1 A1) as [[rs R]|R]; [|by rewrite (right_rows_bad junk rows a n m x)].
    destruct (right_rows_ok junk Hj rows a n m x rs Ha Hn C1 R) as (b & -> & D). cbn [obind]. apply (right_cols_bad junk cols b (length rs) m _ D Hm C2 A2). intros [cs C]. apply Hno. eauto.
  Qed.
  (** Rows and columns of a matrix cannot be addressed by labels. *)
  Theorem C86_label a rows cols : right_index junk Label cols a = Throw /\ (forall res, right_index junk rows Label a <> Ok res) /\
    (forall b, right_rows junk rows a = Ok b -> right_index junk rows Label a = Throw).
  Proof.
    split; [done|]. unfold right_index. split; [by intros res; destruct (right_rows junk rows a)|]. by intros b ->.
  Qed.
  (** X[[rows, cols]] consists of the cells whose row and column have a one, in order. *)
  Theorem C86_filter a n m x sr sc lr lc : is_dense a n m x -> column sr lr -> column sc lc -> bits lr -> bits lc -> length lr = n -> length lc = m -> (Z.of_nat n < 2 ^ 64)%Z -> (Z.of_nat m < 2 ^ 64)%Z -> (forall k, length (junk k) = k) ->
    (exists res, filter_index junk (Some sr) (Some sc) a = Ok res /\ is_dense res (length (kept lr)) (length (kept lc)) (fun r c => x (kept lr !!! r) (kept lc !!! c))) /\
    (exists res, filter_index junk (Some sr) None a = Ok res /\ is_dense res (length (kept lr)) m (fun r c => x (kept lr !!! r) c)) /\
    (exists res, filter_index junk None (Some sc) a = Ok res /\ is_dense res n (length (kept lc)) (fun r c => x r (kept lc !!! c))).
  Proof.
    intros Ha R C Br Bc Lr Lc Hn Hm Hj. unfold filter_index. destruct (C44_filter_rows junk a sr n m x lr Ha R Br Lr Hn Hj) as (b & E & D). split; [|split].
    - rewrite E. cbn [obind]. destruct (C44_filter_cols junk b sc _ m _ lc D C Bc Lc Hm Hj) as (res & -> & D2). eauto.
    - rewrite E. cbn [obind]. eauto.
    - cbn [obind]. destruct (C44_filter_cols junk a sc n m x lc Ha C Bc Lc Hm Hj) as (res & -> & D2). eauto.
  Qed.

  (** ** Assigning *)
  (** X[rows, cols] = Y replaces exactly the addressed cells by those of Y, and no other variable changes. *)
  Theorem C86_assign s x a i n m f y rows cols rs cs : junk_ok junk -> s x = Some (Mat a, false) -> is_dense a n m f -> small n -> small m ->
    clean rows -> clean cols -> assignable rows -> assignable cols -> addressed n rows rs -> addressed m cols cs -> is_dense i (length rs) (length cs) y ->
    exists s' b z, assign junk s x (Some (rows, cols)) (Mat i) = Ok s' /\ s' x = Some (Mat b, false) /\ (forall x', x' <> x -> s' x' = s x') /\
      is_dense b n m z /\ replaced n m rs cs f y z.
  Proof.
    intros Hj Hs Ha Hn Hm C1 C2 A1 A2 R C Hi.
    assert (G : exists b z, is_dense b n m z /\ replaced n m rs cs f y z /\ assign junk s x (Some (rows, cols)) (Mat i) = Ok (put s x (Mat b))).
    { unfold assign. rewrite Hs. destruct (given rows) eqn:G1, (given cols) eqn:G2; cbn [orb andb].
      - destruct (right_rows_ok junk Hj rows a n m f rs Ha Hn C1 R) as (sg & -> & D). cbn [obind].
        destruct (left_cols_ok junk Hj cols sg i (length rs) m _ y cs D Hi Hm C2 A2 G2 C) as (sg' & lc & uc & Ec & Lc & -> & D1). cbn [obind].
        destruct (left_rows_ok junk Hj rows a sg' n m f _ rs Ha D1 Hn C1 A1 G1 R) as (b & lr & ur & Er & Lr & -> & D2). cbn [obind]. eexists b, _. split; [exact D2|]. split; [|done].
        subst rs cs. split.
        + intros r' c' r c Hr Hc. apply lookup_seq in Hr as [-> Hr]. apply lookup_seq in Hc as [-> Hc]. unfold with_rows, with_cols. rewrite decide_True by lia. rewrite decide_True by lia. f_equal; lia.
        + intros r c Hr Hc Hout. rewrite !elem_of_seq in Hout. unfold with_rows, with_cols. case_decide as D3; [|done]. rewrite decide_False by lia. rewrite seq_total by lia. f_equal. lia.
      - rewrite (omitted cols m cs G2 C) in *. rewrite seq_length in Hi. destruct (left_rows_ok junk Hj rows a i n m f y rs Ha Hi Hn C1 A1 G1 R) as (b & lr & ur & Er & Lr & -> & D2). cbn [obind]. eexists b, _. split; [exact D2|]. split; [|done].
        subst rs. split.
        + intros r' c' r c Hr Hc. apply lookup_seq in Hr as [-> Hr]. apply lookup_seq in Hc as [-> Hc]. unfold with_rows. rewrite decide_True by lia. f_equal; lia.
        + intros r c Hr Hc Hout. rewrite !elem_of_seq in Hout. unfold with_rows. rewrite decide_False by lia. done.
      - rewrite (omitted rows n rs G1 R) in *. rewrite seq_length in Hi. destruct (left_cols_ok junk Hj cols a i n m f y cs Ha Hi Hm C2 A2 G2 C) as (b & lc & uc & Ec & Lc & -> & D2). cbn [obind]. eexists b, _. split; [exact D2|]. split; [|done].
        subst cs. split.
        + intros r' c' r c Hr Hc. apply lookup_seq in Hr as [-> Hr]. apply lookup_seq in Hc as [-> Hc]. unfold with_cols. rewrite decide_True by lia. f_equal; lia.
        + intros r c Hr Hc Hout. rewrite !elem_of_seq in Hout. unfold with_cols. rewrite decide_False by lia. done.
      - rewrite (omitted rows n rs G1 R), (omitted cols m cs G2 C) in *. rewrite !seq_length in Hi. exists i, y. split; [exact Hi|]. split; [|done]. split.
        + intros r' c' r c Hr Hc. apply lookup_seq in Hr as [-> Hr]. apply lookup_seq in Hc as [-> Hc]. done.
        + intros r c Hr Hc Hout. rewrite !elem_of_seq in Hout. lia. }
    destruct G as (b & z & D & Rp & E). exists (put s x (Mat b)), b, z. split; [exact E|]. unfold put. split; [by rewrite decide_True|]. split; [|split; assumption]. intros x' Hx. by rewrite decide_False.
  Qed.
  (** What has been assigned is read back. *)
  Theorem C86_read_back s x a i n m f y rows cols rs cs : junk_ok junk -> s x = Some (Mat a, false) -> is_dense a n m f -> small n -> small m ->
    clean rows -> clean cols -> assignable rows -> assignable cols -> addressed n rows rs -> addressed m cols cs -> is_dense i (length rs) (length cs) y ->
    exists s' b res, assign junk s x (Some (rows, cols)) (Mat i) = Ok s' /\ s' x = Some (Mat b, false) /\ right_index junk rows cols b = Ok res /\ is_dense res (length rs) (length cs) y.
  Proof.
    intros Hj Hs Ha Hn Hm C1 C2 A1 A2 R C Hi. destruct (C86_assign s x a i n m f y rows cols rs cs) as (s' & b & z & E & Hb & _ & D & [Rp _]); try assumption.
    destruct (C86_read b n m z rows cols rs cs) as (res & E2 & D2); try assumption. exists s', b, res. split; [done|]. split; [done|]. split; [done|]. eapply is_dense_ext; [exact D2|]. intros r c Hr Hc. cbn beta.
    apply Rp; by apply list_lookup_lookup_total_lt.
  Qed.
  (** It is an error if the shape of Y is not that of the part addressed, unless everything is omitted; *)
  Theorem C86_assign_error s x a i n m ni mi f y rows cols : junk_ok junk -> s x = Some (Mat a, false) -> is_dense a n m f -> is_dense i ni mi y -> 0 < n -> 0 < m -> small n -> small m -> small ni -> small mi ->
    clean rows -> clean cols -> assignable rows -> assignable cols -> given rows = true \/ given cols = true ->
    (~ exists rs cs, addressed n rows rs /\ addressed m cols cs /\ ni = length rs /\ mi = length cs) -> assign junk s x (Some (rows, cols)) (Mat i) = Throw.
  Proof.
    intros Hj Hs Ha Hi N0 M0 Hn Hm Hni Hmi C1 C2 A1 A2 Hg Hno. unfold assign. rewrite Hs. destruct (given rows) eqn:G1, (given cols) eqn:G2; cbn [orb andb]; [| | |destruct Hg; discriminate].
    - destruct (addressed_dec rows n Hn C1 A1) as [[rs R]|R]; [|by rewrite (right_rows_bad junk rows a n m f)].
      destruct (right_rows_ok junk Hj rows a n m f rs Ha Hn C1 R) as (sg & -> & D). cbn [obind]. rewrite (left_cols_bad junk cols sg i (length rs) m ni mi _ y D Hi M0 Hm Hmi C2 A2 G2); [done|].
      intros (cs & C & E1 & E2). apply Hno. exists rs, cs. auto.
    - rewrite (left_rows_bad junk rows a i n m ni mi f y Ha Hi N0 Hn Hni C1 A1 G1); [done|]. intros (rs & R & E1 & E2). apply Hno. exists rs, (seq 0 m). rewrite seq_length. split; [done|]. split; [by apply omitted_addressed|]. auto.
    - rewrite (left_cols_bad junk cols a i n m ni mi f y Ha Hi M0 Hm Hmi C2 A2 G2); [done|]. intros (cs & C & E1 & E2). apply Hno. exists (seq 0 n), cs. rewrite seq_length. split; [by apply omitted_addressed|]. auto.
  Qed.
  (** ... if the variable has no value or is read-only, if a part of a scalar or a part by a scalar is to be replaced; and parts given by
      lists of positions or labels cannot be assigned to. *)
  Theorem C86_assign_refused s x rows cols v :
    (s x = None -> assign junk s x (Some (rows, cols)) v = Throw) /\
    (forall w idx, s x = Some (w, true) -> assign junk s x idx v = Throw) /\
    (forall w o, s x = Some (o, false) -> given rows = true \/ given cols = true -> o = Sca w \/ v = Sca w -> assign junk s x (Some (rows, cols)) v = Throw) /\
    (forall a, s x = Some (Mat a, false) -> ~ assignable rows \/ ~ assignable cols -> forall s', assign junk s x (Some (rows, cols)) v <> Ok s').
  Proof.
    split; [|split; [|split]].
    - intros E. unfold assign. by rewrite E.
    - intros w idx E. unfold assign. by rewrite E.
    - intros w o E Hg Hw. unfold assign. rewrite E. assert (X : given rows || given cols = true) by (apply orb_true_iff; exact Hg). rewrite X. destruct Hw as [-> | ->]; [done|]. by destruct o.
    - intros a E Hna s'. unfold assign. rewrite E. assert (X : forall ax, ~ assignable ax -> given ax = true /\ (forall b i, left_rows junk ax b i = Throw) /\ (forall b i, left_cols junk ax b i = Throw)).
      { intros ax Hax. destruct ax as [|p|lo up|sel|]; cbn in Hax; try (exfalso; tauto); done. }
      destruct Hna as [Hna|Hna]; destruct (X _ Hna) as (Gv & Lr & Lc); rewrite Gv; rewrite ?orb_true_r; cbn [orb andb]; destruct v as [i|w]; try done.
      + destruct (given cols); cbn [andb]; [|by rewrite Lr]. destruct (right_rows junk rows a); cbn [obind]; [|done|done]. destruct (left_cols junk cols a0 i); cbn [obind]; [|done|done]. by rewrite Lr.
      + destruct (given rows); cbn [andb]; [|by rewrite Lc]. destruct (right_rows junk rows a); cbn [obind]; [|done|done]. by rewrite Lc.
  Qed.
  (** FAILS: X[, ] = Y accepts every Y, of any shape, also scalars. *)
  Theorem C86_omit_refuted s x w v rows cols : s x = Some (w, false) -> given rows = false -> given cols = false -> assign junk s x (Some (rows, cols)) v = Ok (put s x v).
  Proof. intros E G1 G2. unfold assign. by rewrite E, G1, G2. Qed.

  (** ** Assignments to several variables *)
  Lemma parts_nil s xs vs s' : assign_parts junk s xs [] vs = Ok s' <-> assigned junk s (map (fun x => (x, None)) xs) vs s'.
  Proof.
    revert s vs. induction xs as [|x xs IH]; intros s [|v vs]; cbn [assign_parts map head tail].
    - split; [intros [= ->]; constructor|intros X; by inversion X].
    - split; [done|intros X; inversion X].
    - split; [done|intros X; inversion X].
    - change (head (@nil (axis * axis))) with (@None (axis * axis)). split.
      + destruct (assign junk s x None v) as [s1| |] eqn:E; cbn [obind]; [|done|done]. intros X. econstructor; [exact E|]. by apply IH.
      + intros X. inversion X as [|? ? ? ? s1 ? ? ? E Y]; subst. rewrite E. cbn [obind]. by apply IH.
  Qed.
  (** They assign each value to its variable with its brackets if the variables with brackets come first. *)
  Theorem C86_several s ps xs vs s' :
    assign_statement junk s (map (fun p => (fst p, Some (snd p))) ps ++ map (fun x => (x, None)) xs) vs = Ok s' <->
    assigned junk s (map (fun p => (fst p, Some (snd p))) ps ++ map (fun x => (x, None)) xs) vs s'.
  Proof.
    revert s vs. induction ps as [|[x idx] ps IH]; intros s vs; unfold assign_statement in *.
    - cbn [map app]. assert (E1 : map fst (map (fun x : nat => (x, @None (axis * axis))) xs) = xs) by (rewrite map_map; apply map_id). assert (E2 : omap snd (map (fun x : nat => (x, @None (axis * axis))) xs) = []) by (clear; induction xs; done).
      rewrite E1, E2. apply parts_nil.
    - cbn [map app fst snd omap list_omap]. change (omap snd ?l) with (list_omap _ _ snd l). destruct vs as [|v vs]; cbn [assign_parts head tail].
      + split; [done|intros X; inversion X].
      + split.
        * destruct (assign junk s x (Some idx) v) as [s1| |] eqn:E; cbn [obind]; [|done|done]. intros X. econstructor; [exact E|]. by apply IH.
        * intros X. inversion X as [|? ? ? ? s1 ? ? ? E Y]; subst. rewrite E. cbn [obind]. by apply IH.
  Qed.
  (** FAILS: brackets are moved to the first variables: x, Y[r, c] = f() is x[r, c], Y = f(). *)
  Theorem C86_several_refuted s x y idx v w : assign_statement junk s [(x, None); (y, Some idx)] [v; w] = assign_statement junk s [(x, Some idx); (y, None)] [v; w].
  Proof. done. Qed.
  Theorem C86_several_lost s x y idx v w : 
    (s x = None -> assign_statement junk s [(x, None); (y, Some idx)] [v; w] = Throw) /\
    (forall s', assign_statement junk s [(x, None); (y, Some idx)] [v; w] = Ok s' -> s' y = Some (w, false)).
  Proof.
    rewrite C86_several_refuted. unfold assign_statement. cbn [map fst omap list_omap snd assign_parts head tail]. split.
    - intros E. unfold assign at 1. rewrite E. by destruct idx.
    - intros s'. destruct (assign junk s x (Some idx) v) as [s1| |]; cbn [obind]; [|done|done]. unfold assign. change (head (@nil (axis * axis))) with (@None (axis * axis)).
      destruct (s1 y) as [[o [|]]|]; cbn [obind]; [done| |]; intros [= <-]; unfold put; by rewrite decide_True.
  Qed.
End theorems.

(** * What does not hold *)
(** FAILS: negative fractions are rounded up: X[-1.5, ] is the last row, not the last but one; X[-0.5, ] is the first row, not the last. *)
Theorem C86_fraction_refuted {V} `{Val V} (junk : nat -> list V) (a : dmat V) n m x : is_dense a n m x -> small n -> 2 <= n ->
  (exists res, right_index junk (At (mkPos (-3) 2)) Omit a = Ok res /\ is_dense res 1 m (fun _ c => x (n - 1) c) /\ addressed n (At (mkPos (-3) 2)) [n - 2]) /\
  (exists res, right_index junk (At (mkPos (-1) 2)) Omit a = Ok res /\ is_dense res 1 m (fun _ c => x 0 c) /\ addressed n (At (mkPos (-1) 2)) [n - 1]).
Proof.
  unfold small. intros Ha Hn H2. split.
  - destruct (slice_row_ok a n m (n - 1) n (-1) 0 x Ha Hn) as (res & E & D); [unfold i64; lia|unfold i64; lia|unfold slice_range, from_end; repeat split; repeat case_decide; lia|].
    exists res. split; [unfold right_index; cbn [right_rows]; change (bounds_at (mkPos (-3) 2)) with (Ok (-1, 0)%Z); cbn [obind fst snd]; rewrite E; done|]. split.
    + replace (n - (n - 1)) with 1 in D by lia. eapply is_dense_ext; [exact D|]. intros r c Hr _. f_equal. lia.
    + constructor; [|lia]. change (floor (mkPos (-3) 2)) with (-2)%Z. unfold counted. rewrite decide_True by lia. lia.
  - destruct (slice_row_ok a n m 0 1 0 1 x Ha Hn) as (res & E & D); [unfold i64; lia|unfold i64; lia|unfold slice_range, from_end; repeat split; repeat case_decide; lia|].
    exists res. split; [unfold right_index; cbn [right_rows]; change (bounds_at (mkPos (-1) 2)) with (Ok (0, 1)%Z); cbn [obind fst snd]; rewrite E; done|]. split.
    + eapply is_dense_ext; [exact D|]. intros r c Hr _. f_equal. lia.
    + constructor; [|lia]. change (floor (mkPos (-1) 2)) with (-1)%Z. unfold counted. rewrite decide_True by lia. lia.
Qed.
(** FAILS: a floating-point position of 2^63 or more is undefined behaviour, not an error. *)
Theorem C86_huge_refuted {V} `{Val V} (junk : nat -> list V) (a : dmat V) cols z : (2 ^ 63 <= z)%Z -> right_index junk (At (mkPos z 1)) cols a = UB.
Proof. intros Hz. unfold right_index. cbn [right_rows]. unfold bounds_at, to_si64. cbn [p_num p_den]. cbv zeta. rewrite Z.quot_1_r. rewrite decide_False by lia. done. Qed.
(** FAILS: a column of a matrix with several columns cannot be used as a list of positions: X[ S[, 0], ] is an error although S[, 0] is [0, 2]. *)
Local Instance Val_nat : Val nat := { vzero := 0; viszero := Nat.eqb 0 }.
Local Instance Val_Z : Val Z := { vzero := 0%Z; viszero := Z.eqb 0 }.
Theorem C86_column_refuted : exists sel, right_index (fun k => replicate k 0%Z) Omit (At (mkPos 0 1)) (mkDM [0; 9; 2; 9]%Z 0 2 2 2) = Ok sel /\ addressed 3 (Positions sel) [0; 2] /\
  right_index (fun k => replicate k 0) (Positions sel) Omit ex_a = Throw.
Proof.
  exists (mkDM [0; 9; 2; 9]%Z 0 2 1 2). split; [reflexivity|]. split; [|reflexivity]. apply (ad_positions 3 _ [0; 2]%Z).
  - split; [done|]. split; [done|]. split; [cbn; lia|]. split; [cbn; right; lia|]. intros [|[|r]] [|c] Hr Hc; try (cbn in Hr, Hc; lia); done.
  - repeat constructor; unfold counted; cbn; lia.
Qed.
(** FAILS: X[-2:0, 0] are the last two rows, but cannot be assigned to. *)
Theorem C86_negative_zero_refuted (s : @vars nat) x i : s x = Some (Mat ex_a, false) ->
  (exists res, right_index (fun k => replicate k 0) (Range (Some (mkPos (-2) 1)) (Some (mkPos 0 1))) (At (mkPos 0 1)) ex_a = Ok res /\ m_rows res = 2 /\ m_cols res = 1) /\
  (forall y, is_dense i 2 1 y -> assign (fun k => replicate k 0) s x (Some (Range (Some (mkPos (-2) 1)) (Some (mkPos 0 1)), At (mkPos 0 1))) (Mat i) = Throw).
Proof.
  intros E. split; [eexists; split; [reflexivity|done]|]. intros y Hi. unfold assign. rewrite E. cbn [given orb andb]. 
  change (right_rows _ _ ex_a) with (Ok (mkDM [1; 2; 3; 4; 5; 6] 2 2 2 2)). cbn [obind].
  destruct (left_cols_ok (fun k => replicate k 0) ltac:(intros k; apply replicate_length) (At (mkPos 0 1)) (mkDM [1; 2; 3; 4; 5; 6] 2 2 2 2) i 2 2 (fun r c => 2 * r + c + 3) y [0]) as (b & l & u & _ & _ & -> & D).
  - split; [done|]. split; [done|]. split; [cbn; lia|]. split; [cbn; right; lia|]. intros [|[|r]] [|[|c]] Hr Hc; (lia || done).
  - exact Hi.
  - unfold small. lia.
  - split; [left; done|]. change (floor (mkPos 0 1)) with 0%Z. lia.
  - exact I.
  - done.
  - constructor; [|lia]. change (floor (mkPos 0 1)) with 0%Z. done.
  - cbn [obind]. destruct D as (Hr & Hc & _). cbn [left_rows]. change (bounds (m_rows ex_a) (Some (mkPos (-2) 1)) (Some (mkPos 0 1))) with (Ok (-2, 0)%Z). cbn [obind fst snd]. unfold insert_row. rewrite Hr, Hc. reflexivity.
Qed.

(** * The theorems apply *)
(** X[1.9, -1:] of the 3 x 2 matrix 1, 2; 3, 4; 5, 6 is 4; X[2, :1] = [9]. *)
Theorem C86_example : clean (At (mkPos 19 10)) /\ addressed 3 (At (mkPos 19 10)) [1] /\ clean (Range (Some (mkPos (-1) 1)) None) /\ addressed 2 (Range (Some (mkPos (-1) 1)) None) [1] /\
  (exists res, right_index (fun k => replicate k 0) (At (mkPos 19 10)) (Range (Some (mkPos (-1) 1)) None) ex_a = Ok res /\ dm_at res 0 0 = Ok 4) /\
  (exists s', assign (fun k => replicate k 0) (fun _ => Some (Mat ex_a, false)) 0 (Some (At (mkPos 2 1), Range None (Some (mkPos 1 1)))) (Mat (mkDM [9] 0 1 1 1)) = Ok s' /\ s' 0 = Some (Mat (mkDM [1; 2; 3; 4; 9; 6] 0 3 2 2), false)).
Proof.
  split; [split; [right; cbn; lia|change (floor (mkPos 19 10)) with 1%Z; lia]|]. split; [constructor; [done|lia]|].
  split; [split; [intros p [= <-]; split; [left; done|change (floor (mkPos (-1) 1)) with (-1)%Z; lia]|split; [done|intros (p & q & _ & Hq & _); discriminate]]|].
  split; [apply (ad_from 2 (mkPos (-1) 1) 1); [done|lia]|]. split; [eexists; split; [reflexivity|done]|]. eexists. split; [reflexivity|]. done.
Qed.

Print Assumptions C86_read.
Print Assumptions C86_read_error.
Print Assumptions C86_label.
Print Assumptions C86_filter.
Print Assumptions C86_assign.
Print Assumptions C86_assign_error.
Print Assumptions C86_several.
