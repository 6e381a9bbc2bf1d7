(** C25 and C46: writing a matrix to a CSV file and reading it back. *)
From stdpp Require Import base numbers list list_numbers.
From Coq Require Import ZArith Lia.
From Verif Require Import CppBase Mem CsvModel.
Local Open Scope nat_scope.

(** * Specification *)
(** The string contains one of comma, line feed, carriage return and quote, and is therefore quoted. *)
Definition quoted (s : list byte) : Prop := COMMA ∈ s \/ LF ∈ s \/ CR ∈ s \/ QUOTE ∈ s.
(** Strings that survive: no NUL; if quoted, no carriage return, no backslash before a quote and none at the end. *)
Definition csv_safe (s : list byte) : Prop :=
  NUL ∉ s /\ (quoted s -> CR ∉ s /\ (forall s1 s2, s <> s1 ++ [BSL; QUOTE] ++ s2) /\ (forall s1, s <> s1 ++ [BSL])).

(** * Proofs: lines *)
Lemma lines_LF bs : lines_of (LF :: bs) = [LF] :: lines_of bs.
Proof. done. Qed.
Lemma lines_cons c bs : c <> LF -> bs <> [] -> exists l ls, lines_of bs = l :: ls /\ lines_of (c :: bs) = (c :: l) :: ls.
Proof.
  intros Hc Hb. cbn [lines_of]. rewrite (proj2 (Nat.eqb_neq c 10) Hc). destruct (lines_of bs) as [|l ls] eqn:E; [|eauto]. exfalso. destruct bs as [|d bs]; [done|]. cbn [lines_of] in E. destruct (d =? 10); [done|]. by destruct (lines_of bs).
Qed.
Lemma lines_nonempty bs : bs <> [] -> exists l ls, lines_of bs = l :: ls.
Proof. destruct bs as [|d bs]; [done|]. intros _. cbn [lines_of]. destruct (d =? 10); [eauto|]. destruct (lines_of bs); eauto. Qed.
Lemma lines_head c bs l ls : lines_of (c :: bs) = l :: ls -> exists l', l = c :: l' /\ (c <> LF -> bs <> [] -> lines_of bs = l' :: ls) /\ (c = LF -> l' = [] /\ lines_of bs = ls).
Proof.
  cbn [lines_of]. destruct (c =? 10) eqn:E.
  - intros [= <- <-]. exists []. apply Nat.eqb_eq in E. subst c. split; [done|]. split; [intros H; by destruct H|done].
  - apply Nat.eqb_neq in E. intros H. destruct (lines_of bs) as [|l0 ls0] eqn:El.
    + injection H as <- <-. exists []. split; [done|]. split; [|done]. intros _ Hb. destruct (lines_nonempty bs Hb) as (? & ? & ?). congruence.
    + injection H as <- <-. exists l0. split; [done|]. split; [done|]. intros ->. done.
Qed.

(** * Strings *)
Lemma quoted_iff s : existsb special s = true <-> quoted s.
Proof.
  rewrite existsb_exists. unfold quoted, special. setoid_rewrite <- elem_of_list_In. split.
  - intros (c & Hc & H). rewrite !orb_true_iff, !Nat.eqb_eq in H. destruct H as [[[->| ->]| ->]| ->]; tauto.
  - intros H. destruct H as [H|[H|[H|H]]]; eexists; (split; [exact H|done]).
Qed.
Lemma c_str_id s : NUL ∉ s -> c_str s = s.
Proof.
  induction s as [|c s IH]; intros H; [done|]. cbn [c_str]. apply not_elem_of_cons in H as [H1 H2]. rewrite (proj2 (Nat.eqb_neq c 0)) by lia. by rewrite IH.
Qed.
Lemma escape_cons c s : escape (c :: s) = (if c =? QUOTE then [QUOTE; QUOTE] else [c]) ++ escape s.
Proof. done. Qed.
Lemma escape_NUL s : NUL ∉ s -> NUL ∉ escape s.
Proof.
  induction s as [|c s IH]; intros H; [done|]. apply not_elem_of_cons in H as [H1 H2]. rewrite escape_cons. intros Hin. apply elem_of_app in Hin as [Hin|Hin]; [|by apply IH].
  destruct (c =? 34); [repeat (apply elem_of_cons in Hin as [Hin|Hin]; [done|]); by apply elem_of_nil in Hin|]. apply elem_of_list_singleton in Hin. done.
Qed.
Lemma print_str_eq s : NUL ∉ s -> print_str s = quote_if s.
Proof.
  intros H. unfold print_str. apply c_str_id. unfold quote_if. destruct (existsb special s); [|done]. intros Hin. apply elem_of_app in Hin as [Hin|Hin]; [by apply elem_of_list_singleton in Hin|]. apply elem_of_app in Hin as [Hin|Hin]; [by apply escape_NUL in Hin|by apply elem_of_list_singleton in Hin].
Qed.
(** quoted strings that survive *)
Definition qsafe (s : list byte) : Prop := NUL ∉ s /\ CR ∉ s /\ (forall s1 s2, s <> s1 ++ [BSL; QUOTE] ++ s2) /\ (forall s1, s <> s1 ++ [BSL]).
Lemma qsafe_cons c s : qsafe (c :: s) -> c <> NUL /\ c <> CR /\ qsafe s /\ (c = BSL -> exists d s', s = d :: s' /\ d <> QUOTE).
Proof.
  intros (H0 & H1 & H2 & H3). apply not_elem_of_cons in H0 as [? H0]. apply not_elem_of_cons in H1 as [? H1]. split; [done|]. split; [done|]. split; [split; [done|]; split; [done|]; split|].
  - intros s1 s2 E. apply (H2 (c :: s1) s2). by rewrite E.
  - intros s1 E. apply (H3 (c :: s1)). by rewrite E.
  - intros ->. destruct s as [|d s]; [by destruct (H3 [])|]. exists d, s. split; [done|]. intros ->. by apply (H2 [] s).
Qed.
Lemma read_quoted_eq ls cur acc : read_quoted ls cur acc = match cur with
  | [] => Ok (acc, cur, ls)
  | c :: cur1 =>
      if c =? NUL then Ok (acc, cur, ls) else
      if c =? QUOTE then match cur1 with d :: cur2 => if d =? QUOTE then read_quoted ls cur2 (acc ++ [QUOTE]) else Ok (acc, cur, ls) | [] => Ok (acc, cur, ls) end
      else if (c =? BSL) && match cur1 with d :: _ => d =? QUOTE | [] => false end then match cur1 with _ :: cur2 => read_quoted ls cur2 (acc ++ [BSL; QUOTE]) | [] => UB end
      else if (c =? LF) || (c =? CR) then match ls with [] => UB | l :: ls' => read_quoted ls' l (acc ++ [LF]) end
      else read_quoted ls cur1 (acc ++ [c])
  end.
Proof. by destruct ls, cur. Qed.
Lemma read_quoted_ok s : forall acc cur ls rest, qsafe s -> rest <> [] -> head rest <> Some QUOTE -> lines_of (escape s ++ QUOTE :: rest) = cur :: ls ->
  exists cur' ls', read_quoted ls cur acc = Ok (acc ++ s, cur', ls') /\ lines_of (QUOTE :: rest) = cur' :: ls'.
Proof.
  induction s as [|c s IH]; intros acc cur ls rest Hs Hr Hh E.
  - cbn [escape map concat app] in E. pose proof E as E0. apply lines_head in E as (cur1 & -> & E1 & _). specialize (E1 ltac:(done) Hr). exists (QUOTE :: cur1), ls. rewrite app_nil_r. split; [|done]. rewrite read_quoted_eq.
    destruct rest as [|d rest]; [done|]. apply lines_head in E1 as (cur2 & -> & _). change (34 =? 0) with false. change (34 =? 34) with true. cbn iota. rewrite (proj2 (Nat.eqb_neq d 34)); [done|]. intros ->. by apply Hh.
  - apply qsafe_cons in Hs as (Hc0 & Hc1 & Hs & Hbs). rewrite escape_cons in E. destruct (c =? 34) eqn:Eq.
    + apply Nat.eqb_eq in Eq as ->. cbn [app] in E. apply lines_head in E as (cur1 & -> & E1 & _). specialize (E1 ltac:(done) ltac:(done)). apply lines_head in E1 as (cur2 & -> & E2 & _).
      specialize (E2 ltac:(done) ltac:(by destruct (escape s))). destruct (IH (acc ++ [QUOTE]) cur2 ls rest Hs Hr Hh E2) as (cur' & ls' & E3 & E4). exists cur', ls'. split; [|done]. rewrite read_quoted_eq. cbn iota. change (34 =? 0) with false. change (34 =? 34) with true. cbn iota. rewrite E3. by rewrite <- app_assoc.
    + cbn [app] in E. apply lines_head in E as (cur1 & -> & E1 & E1'). rewrite read_quoted_eq. rewrite (proj2 (Nat.eqb_neq c 0)) by done. rewrite Eq. apply Nat.eqb_neq in Eq.
      destruct (decide (c = LF)) as [->|Hlf].
      * destruct (E1' eq_refl) as [-> E2]. change (10 =? 92) with false. cbn [andb]. change ((10 =? 10) || (10 =? 13)) with true. cbn iota. destruct (lines_nonempty (escape s ++ QUOTE :: rest)) as (l & ls1 & E3); [by destruct (escape s)|]. rewrite <- E2, E3.
        destruct (IH (acc ++ [LF]) l ls1 rest Hs Hr Hh E3) as (cur' & ls' & E4 & E5). exists cur', ls'. split; [|done]. rewrite E4. by rewrite <- app_assoc.
      * specialize (E1 Hlf ltac:(by destruct (escape s))). assert (Eb : (c =? 92) && match cur1 with d :: _ => d =? 34 | [] => false end = false).
        { destruct (decide (c = BSL)) as [->|Hn]; [|by rewrite (proj2 (Nat.eqb_neq c 92) Hn)]. destruct (Hbs eq_refl) as (d & s' & -> & Hd). rewrite escape_cons, (proj2 (Nat.eqb_neq d 34) Hd) in E1. cbn [app] in E1. apply lines_head in E1 as (cur2 & -> & _). cbn [andb]. change (92 =? 92) with true. by apply Nat.eqb_neq. }
        rewrite Eb. rewrite (proj2 (Nat.eqb_neq c 10)) by done. rewrite (proj2 (Nat.eqb_neq c 13)) by done. cbn [orb]. destruct (IH (acc ++ [c]) cur1 ls rest Hs Hr Hh E1) as (cur' & ls' & E4 & E5). exists cur', ls'. split; [|done]. rewrite E4. by rewrite <- app_assoc.
Qed.
Lemma read_plain_ok s : forall acc cur ls e rest, NUL ∉ s -> ~ quoted s -> e = COMMA \/ e = LF -> lines_of (s ++ e :: rest) = cur :: ls ->
  exists cur', read_plain COMMA cur acc = (acc ++ s, cur') /\ lines_of (e :: rest) = cur' :: ls.
Proof.
  induction s as [|c s IH]; intros acc cur ls e rest Hn Hq He E.
  - cbn [app] in E. exists cur. split; [|done]. rewrite app_nil_r. apply lines_head in E as (cur1 & -> & _). by destruct He as [->| ->].
  - apply not_elem_of_cons in Hn as [Hn1 Hn2]. assert (Hq' : ~ quoted s). { intros H. apply Hq. unfold quoted in *. rewrite !elem_of_cons. tauto. } assert (Hc : c <> COMMA /\ c <> LF /\ c <> CR). { unfold quoted in Hq. rewrite !elem_of_cons in Hq. repeat split; intros ->; apply Hq; tauto. } destruct Hc as (H1 & H2 & H3).
    cbn [app] in E. apply lines_head in E as (cur1 & -> & E1 & _). specialize (E1 H2 ltac:(by destruct s)). destruct (IH (acc ++ [c]) cur1 ls e rest Hn2 Hq' He E1) as (cur' & E2 & E3). exists cur'. split; [|done]. cbn [read_plain].
    rewrite (proj2 (Nat.eqb_neq c 0)), (proj2 (Nat.eqb_neq c 44)), (proj2 (Nat.eqb_neq c 10)), (proj2 (Nat.eqb_neq c 13)) by lia. cbn [orb]. rewrite E2. by rewrite <- app_assoc.
Qed.
(** one field followed by a comma or line feed *)
Lemma read_field s cur ls e rest : csv_safe s -> e = COMMA \/ e = LF -> lines_of (print_str s ++ e :: rest) = cur :: ls ->
  exists cur' ls', set_cstring COMMA ls cur = Ok (s, Some cur', ls') /\ lines_of (e :: rest) = cur' :: ls'.
Proof.
  intros [Hn Hs] He E. rewrite print_str_eq in E by done. unfold quote_if in E. destruct (existsb special s) eqn:Eq.
  - apply quoted_iff in Eq. destruct (Hs Eq) as (H1 & H2 & H3). rewrite <- app_assoc in E. cbn [app] in E. apply lines_head in E as (cur1 & -> & E1 & _). rewrite <- app_assoc in E1. cbn [app] in E1. specialize (E1 ltac:(done) ltac:(by destruct (escape s))).
    destruct (read_quoted_ok s [] cur1 ls (e :: rest)) as (cur' & ls' & E2 & E3); [done|done| |done|]; [destruct He as [->| ->]; done|]. cbn [set_cstring]. change (34 =? 34) with true. cbn iota. rewrite E2. cbn [obind app].
    apply lines_head in E3 as (cur2 & -> & E3 & _). specialize (E3 ltac:(done) ltac:(done)). exists cur2, ls'. done.
  - assert (Hq : ~ quoted s). { intros H. apply quoted_iff in H. congruence. } destruct (read_plain_ok s [] cur ls e rest Hn Hq He E) as (cur' & E2 & E3). exists cur', ls. split; [|done]. unfold set_cstring.
    destruct cur as [|c cur1].
    + exfalso. destruct s as [|c s]; cbn [app] in E; apply lines_head in E as (? & ? & _); done.
    + assert (Hc : c <> QUOTE). { destruct s as [|d s]; cbn [app] in E; apply lines_head in E as (? & [= -> _] & _); [by destruct He as [->| ->]|]. intros ->. apply Hq. unfold quoted. rewrite !elem_of_cons. tauto. }
      rewrite (proj2 (Nat.eqb_neq c 34) Hc). by rewrite E2.
Qed.

(** * Files *)
(** The bytes of row [i] and of the whole matrix [g]. *)
Definition sep (m j : nat) : list byte := if decide (j < m - 1) then [COMMA] else [LF].
Definition row_bytes {V} (pr : V -> list byte) (m : nat) (f : nat -> V) (j k : nat) : list byte := concat ((fun c => pr (f c) ++ sep m c) <$> seq j k).
Definition file_bytes {V} (pr : V -> list byte) (m : nat) (g : nat -> nat -> V) (i k : nat) : list byte := concat ((fun r => row_bytes pr m (g r) 0 m) <$> seq i k).
Lemma concat_seq_S {A} (f : nat -> list A) i k : concat (f <$> seq i (S k)) = concat (f <$> seq i k) ++ f (i + k).
Proof. rewrite seq_S, fmap_app, concat_app. cbn [fmap list_fmap concat]. by rewrite app_nil_r. Qed.
Lemma concat_seq_cons {A} (f : nat -> list A) i k : concat (f <$> seq i (S k)) = f i ++ concat (f <$> seq (S i) k).
Proof. done. Qed.
Lemma write_ok {V} (pr : V -> list byte) a n m g : is_dense a n m g -> write_csv pr a = Ok (file_bytes pr m g 0 n).
Proof.
  intros (Rn & Rm & Hs & Hb & Hg). unfold write_csv. rewrite Rn, Rm.
  match goal with |- for_up 0 n ?f [] = _ => destruct (for_up_inv (fun i out => out = file_bytes pr m g 0 i) 0 n f []) as (out & E & Ho) end; [lia|done| |by rewrite E, Ho].
  intros i out Hi ->. match goal with |- context [for_up 0 m ?f ?s0] => destruct (for_up_inv (fun j out => out = s0 ++ row_bytes pr m (g i) 0 j) 0 m f s0) as (out' & E & Ho) end.
  - lia.
  - unfold row_bytes. cbn. by rewrite app_nil_r.
  - intros j out Hj ->. rewrite (rd_Ok _ _ _ (Hg i j ltac:(lia) ltac:(lia))). cbn [obind]. eexists. split; [done|]. unfold row_bytes. cbn [plus]. rewrite concat_seq_S, <- app_assoc. done.
  - exists out'. split; [done|]. rewrite Ho. unfold file_bytes. cbn [plus]. by rewrite concat_seq_S.
Qed.
(** the cells before position [p] have been read *)
Definition filled {V} (n m : nat) (g : nat -> nat -> V) (p : nat) (b : list V) : Prop := length b = n * m /\ forall i, i < p -> b !! i = Some (g (i / m) (i mod m)).
Lemma filled_step {V} n m (g : nat -> nat -> V) r c b : r < n -> c < m -> filled n m g (r * m + c) b -> filled n m g (r * m + S c) (<[r * m + c := g r c]> b).
Proof.
  intros Hr Hc [Hl Hf]. split; [by rewrite insert_length|]. intros i Hi. destruct (decide (i = r * m + c)) as [->|].
  - rewrite list_lookup_insert by (rewrite Hl; by apply pos_lt). f_equal. replace ((r * m + c) / m) with r; [replace ((r * m + c) mod m) with c; [done|]|].
    + rewrite Nat.add_comm, Nat.mod_add by lia. by rewrite Nat.mod_small.
    + rewrite Nat.add_comm, Nat.div_add by lia. by rewrite Nat.div_small.
  - rewrite list_lookup_insert_ne by done. apply Hf. lia.
Qed.
Lemma filled_dense {V} n m (g : nat -> nat -> V) b : filled n m g (n * m) b -> is_dense (mkDM b 0 n m m) n m g.
Proof.
  intros [Hl Hf]. apply tabulated_is_dense. split; [done|]. intros r c Hr Hc. rewrite Hf by (by apply pos_lt). f_equal. f_equal.
  - rewrite Nat.add_comm, Nat.div_add by lia. by rewrite Nat.div_small.
  - rewrite Nat.add_comm, Nat.mod_add by lia. by rewrite Nat.mod_small.
Qed.
Lemma sep_cases m j : exists e, sep m j = [e] /\ (e = COMMA /\ j < m - 1 \/ e = LF /\ m - 1 <= j).
Proof. unfold sep. destruct (decide (j < m - 1)); eexists; (split; [done|]); [left|right]; split; try done; lia. Qed.
Lemma row_nonempty {V} (pr : V -> list byte) m f j k : 0 < k -> row_bytes pr m f j k <> [].
Proof. intros Hk. destruct k as [|k]; [lia|]. unfold row_bytes. rewrite concat_seq_cons. destruct (sep_cases m j) as (e & -> & _). intros H. apply app_nil in H as [H _]. apply app_nil in H as [_ H]. done. Qed.

Lemma read_str_ok junk n m g : 0 < n -> 0 < m -> (forall k, length (junk k) = k) -> (forall r c, r < n -> c < m -> csv_safe (g r c)) ->
  exists b, read_csv_str COMMA junk (file_bytes print_str m g 0 n) n m = Ok (mkDM b 0 n m m) /\ is_dense (mkDM b 0 n m m) n m g.
Proof.
  intros Hn Hm Hj Hsafe. unfold read_csv_str. rewrite !decide_False by lia.
  match goal with |- context [for_up 0 n ?f ?s0] => destruct (for_up_inv (fun r (s : list line * list (list byte)) => fst s = lines_of (file_bytes print_str m g r (n - r)) /\ filled n m g (r * m) (snd s)) 0 n f s0) as ([ls b] & E & _ & Hf) end.
  - lia.
  - cbn [fst snd]. rewrite Nat.sub_0_r. split; [done|]. split; [apply Hj|]. intros i Hi; lia.
  - intros r [ls b] Hr [Hls Hf]. cbn [fst snd] in *. replace (n - r) with (S (n - S r)) in Hls by lia. unfold file_bytes in Hls. rewrite concat_seq_cons in Hls. fold (file_bytes print_str m g (S r) (n - S r)) in Hls. set (rest := file_bytes print_str m g (S r) (n - S r)) in *.
    destruct (lines_nonempty (row_bytes print_str m (g r) 0 m ++ rest)) as (l & ls1 & El). { intros H. apply app_nil in H as [H _]. by apply row_nonempty in H. }
    rewrite Hls, El.
    match goal with |- context [for_up 0 m ?f ?s0] => destruct (for_up_inv (fun c (t : option line * list line * list (list byte)) => let '(pos, ls, b) := t in
      filled n m g (r * m + c) b /\ if decide (c < m) then exists cur, pos = Some cur /\ lines_of (row_bytes print_str m (g r) c (m - c) ++ rest) = cur :: ls else ls = lines_of rest) 0 m f s0) as ([[pos ls2] b2] & E & Hf2 & Hls2) end.
    + lia.
    + rewrite Nat.add_0_r, Nat.sub_0_r. split; [done|]. rewrite decide_True by lia. eauto.
    + intros c [[pos ls2] b2] Hc [Hf2 Hp]. rewrite decide_True in Hp by lia. destruct Hp as (cur & -> & Hcur). replace (m - c) with (S (m - S c)) in Hcur by lia. unfold row_bytes in Hcur. rewrite concat_seq_cons in Hcur. fold (row_bytes print_str m (g r) (S c) (m - S c)) in Hcur. destruct (sep_cases m c) as (e & Ee & He). rewrite Ee, <- !app_assoc in Hcur. cbn [app] in Hcur.
      destruct (read_field (g r c) cur ls2 e _ (Hsafe r c ltac:(lia) ltac:(lia)) ltac:(tauto) Hcur) as (cur' & ls3 & E3 & Hl3). rewrite E3. cbn [obind]. rewrite wr_Ok by (destruct Hf2 as [-> _]; apply pos_lt; lia). cbn [obind]. eexists. split; [done|].
      split; [apply filled_step; [lia|lia|done]|]. apply lines_head in Hl3 as (cur2 & -> & H1 & H2). cbn [adv]. destruct He as [[-> He]|[-> He]].
      * rewrite decide_True by lia. exists cur2. split; [done|]. apply H1; [done|]. intros H. apply app_nil in H as [H _]. apply row_nonempty in H; [done|lia].
      * rewrite decide_False by lia. destruct (H2 eq_refl) as [_ <-]. replace (m - S c) with 0 by lia. done.
    + rewrite E. cbn [obind]. rewrite decide_False in Hls2 by lia. eexists. split; [done|]. cbn [fst snd]. split; [done|]. by replace ((1 + r) * m) with (r * m + m) by lia.
  - rewrite E. cbn [obind snd] in *. exists b. split; [done|]. by apply filled_dense.
Qed.

(** * C25 *)
(** Every matrix of safe strings, stored with any stride, survives. *)
Theorem C25_strings junk a n m g : 0 < n -> 0 < m -> (forall k, length (junk k) = k) -> is_dense a n m g -> (forall r c, r < n -> c < m -> csv_safe (g r c)) ->
  exists file res, write_csv print_str a = Ok file /\ read_csv_str COMMA junk file n m = Ok res /\ is_dense res n m g.
Proof.
  intros Hn Hm Hj Ha Hs. destruct (read_str_ok junk n m g Hn Hm Hj Hs) as (b & E & Hd). eexists _, _. split; [by apply write_ok|]. split; [exact E|done].
Qed.

(** No string that is read contains a carriage return or NUL, whatever is in the file; such strings never survive. *)
Lemma read_quoted_chars ls : forall cur acc v p ls', CR ∉ acc -> NUL ∉ acc -> read_quoted ls cur acc = Ok (v, p, ls') -> CR ∉ v /\ NUL ∉ v.
Proof.
  assert (Hs : forall (x c : byte) acc, x ∉ acc -> c <> x -> x ∉ acc ++ [c]). { intros x c acc H Hc Hin. apply elem_of_app in Hin as [Hin|Hin]; [done|]. apply elem_of_list_singleton in Hin. congruence. }
  induction ls as [|l ls IHl]; intros cur.
  all: remember (length cur) as k eqn:Hk; revert cur Hk; induction k as [k IHk] using lt_wf_ind; intros cur -> acc v p ls' H1 H2; rewrite read_quoted_eq; destruct cur as [|c cur1]; [by intros [= <- _ _]|].
  all: destruct (c =? 0) eqn:E0; [by intros [= <- _ _]|]; apply Nat.eqb_neq in E0; destruct (c =? 34) eqn:E1; [apply Nat.eqb_eq in E1; subst c; destruct cur1 as [|d cur2]; [by intros [= <- _ _]|]; destruct (d =? 34); [|by intros [= <- _ _]]; apply (IHk (length cur2)); [cbn; lia|done|by apply Hs|by apply Hs]|].
  all: apply Nat.eqb_neq in E1; destruct cur1 as [|d cur2]; cbn iota.
  all: destruct (c =? 92) eqn:E2; cbn [andb]; try (destruct (d =? 34) eqn:E3; [apply (IHk (length cur2)); [cbn; lia|done|change [92; 34] with ([92] ++ [34]); rewrite app_assoc; apply Hs; [by apply Hs|done]|change [92; 34] with ([92] ++ [34]); rewrite app_assoc; apply Hs; [by apply Hs|done]]|]).
  all: destruct ((c =? 10) || (c =? 13)) eqn:E4.
  all: try done.
  all: try (apply IHl; by apply Hs).
  all: apply orb_false_iff in E4 as [E4 E5]; apply Nat.eqb_neq in E5; eapply IHk; [|done| |]; [cbn; lia|by apply Hs|by apply Hs].
Qed.
Lemma read_plain_chars delim cur : forall acc, CR ∉ acc -> NUL ∉ acc -> CR ∉ fst (read_plain delim cur acc) /\ NUL ∉ fst (read_plain delim cur acc).
Proof.
  induction cur as [|c cur IH]; intros acc H1 H2; cbn [read_plain]; [done|]. destruct ((c =? 0) || (c =? delim) || (c =? 10) || (c =? 13)) eqn:E; [done|]. rewrite !orb_false_iff, !Nat.eqb_neq in E. destruct E as [[[E1 _] _] E2].
  apply IH; intros Hin; apply elem_of_app in Hin as [Hin|Hin]; try done; apply elem_of_list_singleton in Hin; congruence.
Qed.
Theorem C25_never_read delim ls cur v p ls' : set_cstring delim ls cur = Ok (v, p, ls') -> CR ∉ v /\ NUL ∉ v.
Proof.
  unfold set_cstring. destruct cur as [|c cur]; [intros [= <- _ _]; split; apply not_elem_of_nil|]. destruct (c =? 34).
  - destruct (read_quoted ls cur []) as [[[v' p'] ls'']| |] eqn:E; cbn [obind]; [|done|done]. intros [= <- _ _]. eapply read_quoted_chars; [| |exact E]; apply not_elem_of_nil.
  - destruct (read_plain delim (c :: cur) []) as [v' p'] eqn:E. intros [= <- _ _]. pose proof (read_plain_chars delim (c :: cur) [] (not_elem_of_nil _) (not_elem_of_nil _)) as H. by rewrite E in H.
Qed.
Definition one_cell (s : list byte) : dmat (list byte) := mkDM [s] 0 1 1 1.
Definition round_trip (s : list byte) : outcome (dmat (list byte)) := let* f := write_csv print_str (one_cell s) in read_csv_str COMMA (fun k => replicate k []) f 1 1.
(** Counterexamples: a string with a backslash before a quote is cut off; a comma and a backslash at the end run into the end of the file;
    a carriage return becomes the end of the file; everything from NUL on is lost. *)
Theorem C25_backslash_quote_refuted : round_trip [97; BSL; QUOTE; 98] = Ok (one_cell [97; BSL; QUOTE]).
Proof. done. Qed.
Theorem C25_backslash_end_refuted : round_trip [COMMA; BSL] = UB.
Proof. done. Qed.
Theorem C25_cr_refuted : round_trip [97; CR; 98] = UB.
Proof. done. Qed.
Theorem C25_nul_refuted : round_trip [97; NUL; 98] = Ok (one_cell [97]).
Proof. done. Qed.
Example C25_ex : round_trip [97; QUOTE; COMMA; LF; BSL; 98; QUOTE] = Ok (one_cell [97; QUOTE; COMMA; LF; BSL; 98; QUOTE]) /\ csv_safe [97; QUOTE; COMMA; LF; BSL; 98; QUOTE].
Proof.
  split; [done|]. split; [by apply (bool_decide_unpack _)|]. intros _. split; [by apply (bool_decide_unpack _)|]. split.
  - intros s1 s2. do 8 (destruct s1 as [|? s1]; [done|]; cbn [app]; intros [= _ H]; revert H).
  - intros s1 H. assert (last [97; QUOTE; COMMA; LF; BSL; 98; QUOTE] = last (s1 ++ [BSL])) as E by (by rewrite H). by rewrite last_snoc in E.
Qed.

(** * Integers *)
Local Open Scope Z_scope.
Lemma digit_ok d : 0 <= d < 10 -> is_digit (48 + Z.to_nat d)%nat = true /\ Z.of_nat (48 + Z.to_nat d)%nat - 48 = d.
Proof. intros Hd. unfold is_digit. split; [|lia]. apply andb_true_iff. rewrite !Nat.leb_le. lia. Qed.
Lemma dec_digits_val fuel : forall n acc a, 0 <= n < 2 ^ Z.of_nat fuel -> exists k, (fuel <> 0%nat -> 0 < k) /\ 0 <= k /\ n < 10 ^ k /\ digits_val (dec_digits fuel n acc) a = digits_val acc (a * 10 ^ k + n).
Proof.
  induction fuel as [|f IH]; intros n acc a Hn.
  - exists 0. change (2 ^ Z.of_nat 0) with 1 in Hn. cbn [dec_digits]. split; [done|]. split; [lia|]. split; [lia|]. f_equal. lia.
  - cbn [dec_digits]. destruct (digit_ok (n mod 10)) as [D1 D2]; [apply Z.mod_pos_bound; lia|]. destruct (n <? 10) eqn:E.
    + apply Z.ltb_lt in E. exists 1. split; [lia|]. split; [lia|]. split; [lia|]. cbn [digits_val]. rewrite D1. f_equal. rewrite D2, Z.mod_small by lia. lia.
    + apply Z.ltb_ge in E. assert (Hd : 0 <= n / 10 < 2 ^ Z.of_nat f).
      { split; [apply Z.div_pos; lia|]. apply Z.div_lt_upper_bound; [lia|]. rewrite Nat2Z.inj_succ, Z.pow_succ_r in Hn by lia. lia. }
      destruct (IH (n / 10) ((48 + Z.to_nat (n mod 10))%nat :: acc) a Hd) as (k & _ & Hk & Hlt & ->). exists (k + 1). split; [lia|]. split; [lia|]. rewrite Z.pow_add_r by lia. pose proof (Z.div_mod n 10). pose proof (Z.mod_pos_bound n 10). split; [lia|].
      cbn [digits_val]. rewrite D1. f_equal. rewrite D2. lia.
Qed.
Lemma dec_digits_first fuel : forall n acc, fuel <> 0%nat -> exists d ds, dec_digits fuel n acc = d :: ds /\ is_digit d = true.
Proof.
  induction fuel as [|f IH]; intros n acc Hf; [done|]. cbn [dec_digits]. destruct (digit_ok (n mod 10)) as [D1 _]; [apply Z.mod_pos_bound; lia|]. destruct (n <? 10); [eauto|]. destruct f as [|f]; [cbn; eauto|]. by apply IH.
Qed.
Lemma digits_val_app bs e rest a : is_digit e = false -> digits_val (bs ++ e :: rest) a = digits_val bs a.
Proof. intros He. revert a. induction bs as [|c bs IH]; intros a; cbn [digits_val app]; [by rewrite He|]. destruct (is_digit c); [apply IH|done]. Qed.
Lemma log2_fuel n : 0 <= n -> n < 2 ^ Z.of_nat (S (Z.to_nat (Z.log2 n))).
Proof.
  intros Hn. pose proof (Z.log2_nonneg n). rewrite Nat2Z.inj_succ, Z2Nat.id by done. destruct (decide (n = 0)) as [->|]; [done|]. apply Z.log2_spec. lia.
Qed.
Lemma atoi_print z e rest : - 2 ^ 31 <= z < 2 ^ 31 -> is_digit e = false -> atoi (print_dec z ++ e :: rest) = Ok z.
Proof.
  intros Hz He. unfold atoi, print_dec. destruct (z <? 0) eqn:E.
  - apply Z.ltb_lt in E. set (n := - z). cbn [app skip_space]. change (is_space 45%nat) with false. cbn iota. change (45 =? 45)%nat with true. cbn iota. rewrite digits_val_app by done.
    destruct (dec_digits_val (S (Z.to_nat (Z.log2 n))) n [] 0) as (k & _ & _ & _ & ->); [split; [lia|apply log2_fuel; lia]|]. cbn [digits_val]. replace (- (0 * 10 ^ k + n)) with z by lia. by rewrite decide_True.
  - apply Z.ltb_ge in E. destruct (dec_digits_val (S (Z.to_nat (Z.log2 z))) z [] 0) as (k & _ & _ & _ & Hv); [split; [lia|apply log2_fuel; lia]|]. destruct (dec_digits_first (S (Z.to_nat (Z.log2 z))) z [] ltac:(done)) as (d & ds & Ed & Hd). rewrite Ed in *. cbn [app skip_space].
    assert (Hd' := Hd). unfold is_digit in Hd'. rewrite andb_true_iff, !Nat.leb_le in Hd'. assert (Es : is_space d = false). { unfold is_space. apply orb_false_iff. rewrite Nat.eqb_neq, andb_false_iff, !Nat.leb_gt. lia. } rewrite Es.
    rewrite (proj2 (Nat.eqb_neq d 45%nat)), (proj2 (Nat.eqb_neq d 43%nat)) by lia. change (d :: ds ++ e :: rest) with ((d :: ds) ++ e :: rest). rewrite digits_val_app by done. rewrite Hv. cbn [digits_val]. replace (0 * 10 ^ k + z) with z by lia. by rewrite decide_True.
Qed.
Lemma print_dec_chars z c : c ∈ print_dec z -> c = 45%nat \/ is_digit c = true.
Proof.
  assert (H : forall fuel n acc, c ∈ dec_digits fuel n acc -> is_digit c = true \/ c ∈ acc).
  { induction fuel as [|f IH]; intros n acc Hc; [by right|]. cbn [dec_digits] in Hc. destruct (digit_ok (n mod 10)) as [D1 _]; [apply Z.mod_pos_bound; lia|]. destruct (n <? 10).
    - apply elem_of_cons in Hc as [->|Hc]; [by left|by right].
    - apply IH in Hc as [Hc|Hc]; [by left|]. apply elem_of_cons in Hc as [->|Hc]; [by left|by right]. }
  unfold print_dec. destruct (z <? 0); intros Hc; [apply elem_of_cons in Hc as [->|Hc]; [by left|]|]; apply H in Hc as [Hc|Hc]; try (by right); by apply elem_of_nil in Hc.
Qed.
Local Open Scope nat_scope.
Lemma lines_prefix s : forall e rest cur ls, LF ∉ s -> lines_of (s ++ e :: rest) = cur :: ls -> exists cur', cur = s ++ cur' /\ lines_of (e :: rest) = cur' :: ls.
Proof.
  induction s as [|c s IH]; intros e rest cur ls Hs E; [exists cur; done|]. apply not_elem_of_cons in Hs as [Hc Hs]. cbn [app] in E. apply lines_head in E as (l & -> & E & _). specialize (E ltac:(lia) ltac:(by destruct s)). destruct (IH _ _ _ _ Hs E) as (cur' & -> & ?). exists cur'. done.
Qed.
Lemma skip_field_ok s cur : COMMA ∉ s -> skip_field COMMA (s ++ COMMA :: cur) = Ok cur.
Proof. induction s as [|c s IH]; intros H; [done|]. apply not_elem_of_cons in H as [H1 H2]. cbn [app skip_field]. rewrite (proj2 (Nat.eqb_neq c 44)) by lia. by apply IH. Qed.

Lemma read_int_ok (pr : Z -> list byte) conv junk n m g : 0 < n -> 0 < m -> (forall k, length (junk k) = k) ->
  (forall r c, r < n -> c < m -> exists w, pr (g r c) = print_dec w /\ (- 2 ^ 31 <= w < 2 ^ 31)%Z /\ conv w = g r c) ->
  exists b, read_csv_int conv COMMA junk (file_bytes pr m g 0 n) n m = Ok (mkDM b 0 n m m) /\ is_dense (mkDM b 0 n m m) n m g.
Proof.
  intros Hn Hm Hj Hsafe. unfold read_csv_int. rewrite !decide_False by lia.
  match goal with |- context [for_up 0 n ?f ?s0] => destruct (for_up_inv (fun r (s : list line * list Z) => fst s = lines_of (file_bytes pr m g r (n - r)) /\ filled n m g (r * m) (snd s)) 0 n f s0) as ([ls b] & E & _ & Hf) end.
  - lia.
  - cbn [fst snd]. rewrite Nat.sub_0_r. split; [done|]. split; [apply Hj|]. intros i Hi; lia.
  - intros r [ls b] Hr [Hls Hf]. cbn [fst snd] in *. replace (n - r) with (S (n - S r)) in Hls by lia. unfold file_bytes in Hls. rewrite concat_seq_cons in Hls. fold (file_bytes pr m g (S r) (n - S r)) in Hls. set (rest := file_bytes pr m g (S r) (n - S r)) in *.
    destruct (lines_nonempty (row_bytes pr m (g r) 0 m ++ rest)) as (l & ls1 & El). { intros H. apply app_nil in H as [H _]. by apply row_nonempty in H. }
    rewrite Hls, El.
    match goal with |- context [for_up 0 m ?f ?s0] => destruct (for_up_inv (fun c (t : line * list Z) =>
      filled n m g (r * m + c) (snd t) /\ if decide (c < m) then lines_of (row_bytes pr m (g r) c (m - c) ++ rest) = fst t :: ls1 else ls1 = lines_of rest) 0 m f s0) as ([cur2 b2] & E & Hf2 & Hls2) end.
    + lia.
    + cbn [fst snd]. rewrite Nat.add_0_r, Nat.sub_0_r. split; [done|]. by rewrite decide_True by lia.
    + intros c [cur b2] Hc [Hf2 Hcur]. cbn [fst snd] in *. rewrite decide_True in Hcur by lia. replace (m - c) with (S (m - S c)) in Hcur by lia. unfold row_bytes in Hcur. rewrite concat_seq_cons in Hcur. fold (row_bytes pr m (g r) (S c) (m - S c)) in Hcur. destruct (sep_cases m c) as (e & Ee & He). rewrite Ee, <- !app_assoc in Hcur. cbn [app] in Hcur.
      destruct (Hsafe r c ltac:(lia) ltac:(lia)) as (w & Ew & Hw & Hconv). rewrite Ew in Hcur.
      assert (Hnc : forall x, x = 10 \/ x = 44 -> x ∉ print_dec w). { intros x Hx Hin. apply print_dec_chars in Hin as [->|Hin]; [lia|]. destruct Hx as [->| ->]; done. }
      destruct (lines_prefix (print_dec w) e _ cur ls1 (Hnc 10 ltac:(by left)) Hcur) as (cur' & -> & Hl'). apply lines_head in Hl' as (cur2 & -> & H1 & H2).
      rewrite atoi_print; [|done|by destruct He as [[-> _]|[-> _]]]. cbn [obind]. rewrite Hconv, wr_Ok by (destruct Hf2 as [-> _]; apply pos_lt; lia). cbn [obind].
      pose proof (filled_step n m g r c b2 ltac:(lia) ltac:(lia) Hf2) as Hf3. destruct He as [[-> He]|[-> He]].
      * rewrite decide_True by lia. rewrite skip_field_ok by (apply Hnc; by right). cbn [obind]. eexists. split; [done|]. cbn [fst snd]. split; [done|]. rewrite decide_True by lia. apply H1; [done|]. intros H. apply app_nil in H as [H _]. apply row_nonempty in H; [done|lia].
      * rewrite decide_False by lia. eexists. split; [done|]. cbn [fst snd]. split; [done|]. rewrite decide_False by lia. destruct (H2 eq_refl) as [_ <-]. replace (m - S c) with 0 by lia. done.
    + rewrite E. cbn [obind snd] in *. rewrite decide_False in Hls2 by lia. eexists. split; [done|]. cbn [fst snd]. split; [done|]. by replace ((1 + r) * m) with (r * m + m) by lia.
  - rewrite E. cbn [obind snd] in *. exists b. split; [done|]. by apply filled_dense.
Qed.

(** * C46 *)
(** Integers in the range of int survive, for int64 (%ld) and for the types that hold them (%d). *)
Theorem C46_integers pr conv junk a n m g : 0 < n -> 0 < m -> (forall k, length (junk k) = k) -> is_dense a n m g ->
  pr = print_ld \/ pr = print_d -> (forall r c, r < n -> c < m -> (- 2 ^ 31 <= g r c < 2 ^ 31)%Z /\ conv (g r c) = g r c) ->
  exists file res, write_csv pr a = Ok file /\ read_csv_int conv COMMA junk file n m = Ok res /\ is_dense res n m g.
Proof.
  intros Hn Hm Hj Ha Hp Hs. destruct (read_int_ok pr conv junk n m g Hn Hm Hj) as (b & E & Hd).
  - intros r c Hr Hc. destruct (Hs r c Hr Hc) as [H1 H2]. exists (g r c). split; [|done]. destruct Hp as [->| ->]; [done|]. unfold print_d, int32. do 2 f_equal. rewrite Z.mod_small; lia.
  - eexists _, _. split; [by apply write_ok|]. split; [exact E|done].
Qed.
(** uint32: %d prints the value as a signed number and the conversion from int restores it. *)
Theorem C46_uint32 junk a n m g : 0 < n -> 0 < m -> (forall k, length (junk k) = k) -> is_dense a n m g -> (forall r c, r < n -> c < m -> (0 <= g r c < 2 ^ 32)%Z) ->
  exists file res, write_csv print_d a = Ok file /\ read_csv_int (fun z => (z mod 2 ^ 32)%Z) COMMA junk file n m = Ok res /\ is_dense res n m g.
Proof.
  intros Hn Hm Hj Ha Hs. destruct (read_int_ok print_d (fun z => (z mod 2 ^ 32)%Z) junk n m g Hn Hm Hj) as (b & E & Hd).
  - intros r c Hr Hc. exists (int32 (g r c)). split; [done|]. specialize (Hs r c Hr Hc). unfold int32. pose proof (Z.mod_pos_bound (g r c + 2 ^ 31) (2 ^ 32) ltac:(lia)). split; [lia|]. cbn beta. rewrite Zminus_mod_idemp_l. replace (g r c + 2 ^ 31 - 2 ^ 31)%Z with (g r c) by lia. by rewrite Z.mod_small.
  - eexists _, _. split; [by apply write_ok|]. split; [exact E|done].
Qed.
(** int64 values outside of int are written correctly, but reading them is undefined; uint64 values are already written wrong. *)
Theorem C46_int64_refuted : exists file, write_csv print_ld (mkDM [(2 ^ 31)%Z] 0 1 1 1) = Ok file /\ read_csv_int (fun z => z) COMMA (fun k => replicate k 0%Z) file 1 1 = UB.
Proof. eexists. split; [done|]. done. Qed.
Theorem C46_uint64_refuted : exists file, write_csv print_d (mkDM [(2 ^ 32)%Z] 0 1 1 1) = Ok file /\ read_csv_int (fun z => (z mod 2 ^ 64)%Z) COMMA (fun k => replicate k 0%Z) file 1 1 = Ok (mkDM [0%Z] 0 1 1 1).
Proof. eexists. split; [done|]. done. Qed.
Example C46_ex_bytes : write_csv print_ld (mkDM [(-120)%Z; 7%Z; 3%Z; 45%Z] 0 2 2 2) = Ok [45; 49; 50; 48; 44; 55; 10; 51; 44; 52; 53; 10].
Proof. done. Qed.
Example C46_ex : exists res, read_csv_int (fun z => z) COMMA (fun k => replicate k 0%Z) [45; 49; 50; 48; 44; 55; 10; 51; 44; 52; 53; 10] 2 2 = Ok res /\ m_buf res = [(-120)%Z; 7%Z; 3%Z; 45%Z].
Proof. eexists. split; [done|]. done. Qed.

Print Assumptions C25_strings. Print Assumptions C25_never_read. Print Assumptions C46_integers. Print Assumptions C46_uint32.
