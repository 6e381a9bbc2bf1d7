(** Property C90: comparisons, concatenation and case of string scalars, of strings in matrices and of fixed-size strings. *)
From stdpp Require Import base numbers list.
From Coq Require Import Lia.
From Verif Require Import CppBase StrValModel.

(** * Specification *)
(** Alphabetical order by bytes: a proper prefix comes first; otherwise the first different byte decides. *)
Definition before (s t : list nat) : Prop :=
  (exists a t', t = s ++ a :: t') \/ (exists p a b s' t', s = p ++ a :: s' /\ t = p ++ b :: t' /\ a < b).
Definition says (o : sop) (s t : list nat) : Prop :=
  match o with
  | EQ => s = t | NEQ => s <> t | LT => before s t | LE => before s t \/ s = t | GT => before t s | GE => before t s \/ s = t
  | MIN | MAX | CONCAT => False
  end.
Definition is_cmp (o : sop) : Prop := match o with MIN | MAX | CONCAT => False | _ => True end.
(** The string [s], which has no NUL byte, is at the address [p]. *)
Definition string_at (mem : list nat) (p : nat) (s : list nat) : Prop := 0 ∉ s /\ exists rest, drop p mem = s ++ 0 :: rest.
(** The strings expressions stand for *)
Fixpoint value (vs : list (list nat)) (e : sexp) : option (list nat) :=
  match e with
  | Var i => vs !! i
  | Cat a b => match value vs a, value vs b with Some s, Some t => Some (s ++ t) | _, _ => None end
  | Low a => match value vs a with Some s => Some (map tolower s) | None => None end
  | Upp a => match value vs a with Some s => Some (map toupper s) | None => None end
  end.
Definition ascii (s : list nat) : Prop := Forall (fun c => c < 128) s.

(** * Order *)
Lemma compare_refl s : str_compare s s = Eq.
Proof. induction s as [|a s IH]; [done|]. cbn. by rewrite Nat.compare_refl. Qed.
Lemma compare_before s t : before s t -> str_compare s t = Lt /\ str_compare t s = Gt.
Proof.
  intros [(a & t' & ->)|(p & a & b & s' & t' & -> & -> & H)].
  - induction s as [|c s IH]; [done|]. cbn. by rewrite Nat.compare_refl.
  - induction p as [|c p IH]; cbn.
    + by rewrite (proj2 (Nat.compare_lt_iff a b)), (proj2 (Nat.compare_gt_iff b a)).
    + by rewrite Nat.compare_refl.
Qed.
Lemma before_cons c s t : before s t -> before (c :: s) (c :: t).
Proof.
  intros [(a & t' & ->)|(p & a & b & s' & t' & -> & -> & H)]; [left; by exists a, t'|].
  right. by exists (c :: p), a, b, s', t'.
Qed.
Lemma compare_spec s : forall t, match str_compare s t with Eq => s = t | Lt => before s t | Gt => before t s end.
Proof.
  induction s as [|a s IH]; intros [|b t]; cbn; [done|left; by exists b, t|left; by exists a, s|].
  destruct (Nat.compare_spec a b) as [->|H|H].
  - specialize (IH t). destruct (str_compare s t); [congruence|by apply before_cons..].
  - right. by exists [], a, b, s, t.
  - right. by exists [], b, a, t, s.
Qed.
(** The specification is a strict total order. *)
Theorem C90_order s t u :
  (before s t \/ s = t \/ before t s) /\ (before s t -> s <> t /\ ~ before t s) /\ (before s t -> before t u -> before s u).
Proof.
  split; [pose proof (compare_spec s t); destruct (str_compare s t); auto|]. split.
  - intros H. apply compare_before in H as [H1 H2]. split; [intros ->; by rewrite compare_refl in H1|].
    intros H. apply compare_before in H as [H3 H4]. congruence.
  - revert t u. induction s as [|a s IH]; intros [|b t] [|c u] H1 H2;
      try (apply compare_before in H1 as [H1 _]; done); try (apply compare_before in H2 as [H2 _]; done).
    + left. by exists c, u.
    + pose proof (compare_before _ _ H1) as [E1 _]. pose proof (compare_before _ _ H2) as [E2 _]. cbn in E1, E2.
      destruct (Nat.compare_spec a b) as [->|L1|L1]; [|clear E1|done].
      * destruct (Nat.compare_spec b c) as [->|L2|L2]; [|right; by exists [], b, c, s, u|done]. apply before_cons. eapply IH.
        -- pose proof (compare_spec s t) as X. rewrite E1 in X. exact X.
        -- pose proof (compare_spec t u) as X. rewrite E2 in X. exact X.
      * right. exists [], a, c, s, u. split_and!; [done|done|]. destruct (Nat.compare_spec b c); [lia|lia|done].
Qed.

(** * Strings in matrices *)
(** Cells are compared alphabetically by bytes. *)
Theorem C90_matrix o s t : is_cmp o -> exists b, ew_str o s t = Ok (RB b) /\ (b = true <-> says o s t).
Proof.
  intros Ho. pose proof (compare_spec s t) as H. pose proof (proj1 (proj2 (C90_order s t t))) as H1. pose proof (proj1 (proj2 (C90_order t s s))) as H2.
  unfold ew_str. destruct o; try done; cbn [supported]; destruct (str_compare s t); cbn;
    (eexists; split; [reflexivity|]); cbn; (split; [intros E; try done|intros E]); subst; try done; auto;
    try (destruct (H1 E); done); try (destruct (H2 E); done); try tauto;
    try (destruct (H1 H) as [? ?]; try tauto; naive_solver); try (destruct (H2 H) as [? ?]; try tauto; naive_solver); naive_solver.
Qed.
(** Concatenation; there is no minimum or maximum. *)
Theorem C90_matrix_concat s t : ew_str CONCAT s t = Ok (RS (s ++ t)) /\ ew_str MIN s t = Throw /\ ew_str MAX s t = Throw.
Proof. done. Qed.
Lemma cstr_ok s r : 0 ∉ s -> cstr (s ++ 0 :: r) = Ok s.
Proof.
  induction s as [|c s IH]; intros H; [done|]. apply not_elem_of_cons in H as [H1 H2]. cbn. destruct c as [|c]; [done|]. by rewrite IH.
Qed.
Lemma cstr_at_ok mem p s : string_at mem p s -> cstr_at mem p = Ok s.
Proof. intros (H & r & E). unfold cstr_at. rewrite E. by apply cstr_ok. Qed.
(** A matrix and a string scalar: the same, with the characters of the scalar. *)
Theorem C90_matrix_scalar o s mem q t : string_at mem q t -> ew_str_c o s mem q = ew_str o s t.
Proof. intros H. unfold ew_str_c. by rewrite (cstr_at_ok _ _ _ H). Qed.

(** * String scalars *)
Lemma string_at_app mem p s ext : string_at mem p s -> string_at (mem ++ ext) p s.
Proof.
  intros (H & r & E). split; [done|]. exists (r ++ ext). rewrite drop_app_le, E by (apply (f_equal length) in E; rewrite drop_length, app_length in E; cbn in E; lia).
  by rewrite <- app_assoc.
Qed.
Lemma string_at_lt mem p s : string_at mem p s -> p < length mem.
Proof. intros (_ & r & E). apply (f_equal length) in E. rewrite drop_length, app_length in E. cbn in E. lia. Qed.
Lemma string_at_new mem s : 0 ∉ s -> string_at (mem ++ s ++ [0]) (length mem) s.
Proof. intros H. split; [done|]. exists []. by rewrite drop_app. Qed.
Lemma copy_at mem old s rest : length old = length s -> copy (mem ++ old ++ rest) (length mem) s = Ok (mem ++ s ++ rest).
Proof.
  intros E. unfold copy. rewrite decide_True by (rewrite !app_length; lia). rewrite take_app, <- E. by rewrite (app_assoc mem old rest), <- app_length, drop_app.
Qed.
Section Scalars.
  Context (junk : nat -> list nat) (Hj : forall n, length (junk n) = n).
  Lemma junk_split n m : exists a b, junk (n + m) = a ++ b /\ length a = n /\ length b = m.
  Proof. exists (take n (junk (n + m))), (drop n (junk (n + m))). rewrite take_drop, take_length, drop_length, Hj. split_and!; [done|lia|lia]. Qed.
  Lemma c_concat_ok mem p q s t : string_at mem p s -> string_at mem q t -> c_concat junk mem p q = Ok (mem ++ (s ++ t) ++ [0], length mem).
  Proof.
    intros Hs Ht. unfold c_concat. rewrite (cstr_at_ok _ _ _ Hs), (cstr_at_ok _ _ _ Ht). cbn [obind].
    replace (length s + length t + 1) with (length s + (length t + 1)) by lia.
    destruct (junk_split (length s) (length t + 1)) as (a & r & E & Ha & Hr). rewrite E.
    rewrite copy_at by done. cbn [obind].
    assert (exists b z, r = b ++ [z] /\ length b = length t) as (b & z & -> & Hb).
    { destruct (exists_last (l := r)) as (b & z & ->); [intros ->; cbn in Hr; lia|]. exists b, z. split; [done|]. rewrite app_length in Hr. cbn in Hr. lia. }
    rewrite app_assoc, <- app_length, copy_at by done. cbn [obind]. rewrite wr_Ok by (rewrite !app_length; cbn; lia). cbn [obind]. f_equal. f_equal.
    replace (length mem + (length s + length t)) with (length ((mem ++ s) ++ t) + 0) by (rewrite !app_length; lia).
    rewrite (app_assoc (mem ++ s) t), insert_app_r. cbn. by rewrite <- !app_assoc.
  Qed.
  Lemma mapo_ascii f s : ascii s -> mapo (on_char f) s = Ok (map f s).
  Proof. induction 1 as [|c s Hc _ IH]; [done|]. cbn [mapo map]. unfold on_char at 1. rewrite decide_False by lia. cbn [obind]. by rewrite IH. Qed.
  Lemma c_case_ok f mem p s : string_at mem p s -> ascii s -> c_case junk f mem p = Ok (mem ++ map f s ++ [0], length mem).
  Proof.
    intros Hs Ha. unfold c_case. rewrite (cstr_at_ok _ _ _ Hs). cbn [obind]. rewrite mapo_ascii by done. cbn [obind].
    destruct (junk_split (length s) 1) as (a & r & E & Hla & Hr). rewrite E. rewrite copy_at by (by rewrite map_length). cbn [obind].
    destruct r as [|z [|? ?]]; try done. rewrite wr_Ok by (rewrite !app_length, map_length; cbn; lia). cbn [obind]. f_equal. f_equal.
    replace (length mem + length s) with (length (mem ++ map f s) + 0) by (rewrite app_length, map_length; lia).
    rewrite (app_assoc mem), insert_app_r. cbn. by rewrite <- !app_assoc.
  Qed.
  Lemma lower_ok s : 0 ∉ s -> ascii s -> 0 ∉ map tolower s /\ ascii (map tolower s).
  Proof.
    intros H Ha. split.
    - intros (c & E & Hc)%elem_of_list_fmap. unfold tolower in E. case_decide; [lia|]. by subst.
    - apply Forall_map. eapply Forall_impl; [exact Ha|]. intros c Hc. unfold compose, tolower. cbn beta in *. case_decide; lia.
  Qed.
  Lemma upper_ok s : 0 ∉ s -> ascii s -> 0 ∉ map toupper s /\ ascii (map toupper s).
  Proof.
    intros H Ha. split.
    - intros (c & E & Hc)%elem_of_list_fmap. unfold toupper in E. case_decide; [lia|]. by subst.
    - apply Forall_map. eapply Forall_impl; [exact Ha|]. intros c Hc. unfold compose, toupper. cbn beta in *. case_decide; lia.
  Qed.
  Definition is_var (e : sexp) : Prop := match e with Var _ => True | _ => False end.
  Lemma eval_ok env vs (Hv : Forall ascii vs) e : forall mem s,
    Forall2 (string_at mem) env vs -> value vs e = Some s ->
    exists ext p, eval junk env e mem = Ok (mem ++ ext, p) /\ string_at (mem ++ ext) p s /\ ascii s /\
      match e with Var i => ext = [] /\ env !! i = Some p | _ => length mem <= p end.
  Proof.
    induction e as [i|a IHa b IHb|a IHa|a IHa]; intros mem s He Hs; cbn in Hs.
    - destruct (Forall2_lookup_r _ _ _ _ _ He Hs) as (p & Ep & Hp). exists [], p. rewrite app_nil_r. cbn [eval]. rewrite (rd_Ok _ _ _ Ep).
      split_and!; try done. by eapply Forall_lookup_1.
    - destruct (value vs a) as [sa|] eqn:Ea; [|done]. destruct (value vs b) as [sb|] eqn:Eb; [|done]. injection Hs as <-.
      destruct (IHa mem sa He eq_refl) as (x & p & Ex & Hp & Aa & _).
      destruct (IHb (mem ++ x) sb) as (y & q & Ey & Hq & Ab & _); [|done|].
      { eapply Forall2_impl; [exact He|]. intros ? ?. apply string_at_app. }
      cbn [eval]. rewrite Ex. cbn [obind]. rewrite Ey. cbn [obind]. pose proof (string_at_app _ _ _ y Hp) as Hp'.
      rewrite (c_concat_ok _ _ _ _ _ Hp' Hq). exists (x ++ y ++ (sa ++ sb) ++ [0]), (length ((mem ++ x) ++ y)).
      rewrite !(app_assoc mem), (app_assoc (mem ++ x)). split_and!; [done| | |rewrite !app_length; lia].
      + apply string_at_new. rewrite elem_of_app. intros [?|?]; [by apply Hp|by apply Hq].
      + by apply Forall_app.
    - destruct (value vs a) as [sa|] eqn:Ea; [|done]. injection Hs as <-. destruct (IHa mem sa He eq_refl) as (x & p & Ex & Hp & Aa & _).
      cbn [eval]. rewrite Ex. cbn [obind]. rewrite (c_case_ok _ _ _ _ Hp Aa). exists (x ++ map tolower sa ++ [0]), (length (mem ++ x)).
      destruct (lower_ok sa (proj1 Hp) Aa). rewrite (app_assoc mem). split_and!; [done|by apply string_at_new|done|rewrite app_length; lia].
    - destruct (value vs a) as [sa|] eqn:Ea; [|done]. injection Hs as <-. destruct (IHa mem sa He eq_refl) as (x & p & Ex & Hp & Aa & _).
      cbn [eval]. rewrite Ex. cbn [obind]. rewrite (c_case_ok _ _ _ _ Hp Aa). exists (x ++ map toupper sa ++ [0]), (length (mem ++ x)).
      destruct (upper_ok sa (proj1 Hp) Aa). rewrite (app_assoc mem). split_and!; [done|by apply string_at_new|done|rewrite app_length; lia].
  Qed.
  Lemma eval2_ok env vs a b mem s t : Forall ascii vs -> Forall2 (string_at mem) env vs -> value vs a = Some s -> value vs b = Some t ->
    exists ext p q, (forall o, eval2 junk o env a b mem = ew_c junk o (mem ++ ext) p q) /\ string_at (mem ++ ext) p s /\ string_at (mem ++ ext) q t /\
      (~ (is_var a /\ is_var b) -> p <> q) /\ (forall i, a = Var i -> env !! i = Some p) /\ (forall i, b = Var i -> env !! i = Some q).
  Proof.
    intros Hv He Ha Hb. destruct (eval_ok env vs Hv a mem s He Ha) as (x & p & Ex & Hp & _ & Fa).
    assert (He' : Forall2 (string_at (mem ++ x)) env vs) by (eapply Forall2_impl; [exact He|]; intros ? ?; apply string_at_app).
    destruct (eval_ok env vs Hv b (mem ++ x) t He' Hb) as (y & q & Ey & Hq & _ & Fb).
    exists (x ++ y), p, q. split_and!.
    - intros o. unfold eval2. rewrite Ex. cbn [obind]. rewrite Ey. cbn [obind]. by rewrite app_assoc.
    - rewrite app_assoc. by apply string_at_app.
    - by rewrite app_assoc.
    - intros Hn. pose proof (string_at_lt _ _ _ Hp) as L.
      destruct b as [j| | |]; [|lia..]. destruct Fb as [-> Fb].
      destruct (Forall2_lookup_l _ _ _ _ _ He Fb) as (v & _ & Hv'). apply string_at_lt in Hv'. destruct a; [|lia..]. exfalso. apply Hn. done.
    - intros i ->. apply Fa.
    - intros i ->. apply Fb.
  Qed.

  (** Equality of string scalars is equality of their characters. *)
  Theorem C90_scalar_eq env vs a b mem s t : Forall ascii vs -> Forall2 (string_at mem) env vs -> value vs a = Some s -> value vs b = Some t ->
    exists mem', eval2 junk EQ env a b mem = Ok (mem', RB (bool_decide (s = t))).
  Proof.
    intros Hv He Ha Hb. destruct (eval2_ok env vs a b mem s t Hv He Ha Hb) as (x & p & q & E & Hp & Hq & _). exists (mem ++ x). rewrite E.
    unfold ew_c. cbn [supported]. by rewrite (cstr_at_ok _ _ _ Hp), (cstr_at_ok _ _ _ Hq).
  Qed.
  (** Concatenation gives the characters of both; all strings that existed stay as they are. *)
  Theorem C90_scalar_concat env vs a b mem s t : Forall ascii vs -> Forall2 (string_at mem) env vs -> value vs a = Some s -> value vs b = Some t ->
    exists mem' r, eval2 junk CONCAT env a b mem = Ok (mem', RS r) /\ string_at mem' r (s ++ t) /\
      (forall p u, string_at mem p u -> string_at mem' p u).
  Proof.
    intros Hv He Ha Hb. destruct (eval2_ok env vs a b mem s t Hv He Ha Hb) as (x & p & q & E & Hp & Hq & _).
    exists ((mem ++ x) ++ (s ++ t) ++ [0]), (length (mem ++ x)). rewrite E. unfold ew_c. cbn [supported]. rewrite (c_concat_ok _ _ _ _ _ Hp Hq).
    split_and!; [done| |].
    - apply string_at_new. rewrite elem_of_app. intros [?|?]; [by apply Hp|by apply Hq].
    - intros p0 u Hu. rewrite <- app_assoc. by apply string_at_app.
  Qed.
  (** The values of expressions with concatenation, lower and upper are as specified. *)
  Theorem C90_scalar_value env vs e mem s : Forall ascii vs -> Forall2 (string_at mem) env vs -> value vs e = Some s ->
    exists mem' p, eval junk env e mem = Ok (mem', p) /\ string_at mem' p s /\ (forall q u, string_at mem q u -> string_at mem' q u).
  Proof.
    intros Hv He Hs. destruct (eval_ok env vs Hv e mem s He Hs) as (x & p & E & Hp & _). exists (mem ++ x), p. split_and!; [done|done|].
    intros. by apply string_at_app.
  Qed.
  (** Different strings are different.  FAILS for equal ones: unless both sides are plain variables or constants, the answer is always 1, also if
      the characters are the same - then both == and != say 1. *)
  Theorem C90_neq_different env vs a b mem s t : Forall ascii vs -> Forall2 (string_at mem) env vs -> value vs a = Some s -> value vs b = Some t ->
    s <> t -> exists mem', eval2 junk NEQ env a b mem = Ok (mem', RB true).
  Proof.
    intros Hv He Ha Hb Hn. destruct (eval2_ok env vs a b mem s t Hv He Ha Hb) as (x & p & q & E & Hp & Hq & _). exists (mem ++ x). rewrite E.
    unfold ew_c. cbn [supported]. rewrite bool_decide_true; [done|]. intros ->. apply Hn.
    pose proof (cstr_at_ok _ _ _ Hp). pose proof (cstr_at_ok _ _ _ Hq). congruence.
  Qed.
  Theorem C90_neq_refuted env vs a b mem s : Forall ascii vs -> Forall2 (string_at mem) env vs -> value vs a = Some s -> value vs b = Some s ->
    ~ (is_var a /\ is_var b) ->
    (exists mem', eval2 junk NEQ env a b mem = Ok (mem', RB true)) /\ (exists mem', eval2 junk EQ env a b mem = Ok (mem', RB true)).
  Proof.
    intros Hv He Ha Hb Hn. split.
    - destruct (eval2_ok env vs a b mem s s Hv He Ha Hb) as (x & p & q & E & Hp & Hq & Hd & _). exists (mem ++ x). rewrite E.
      unfold ew_c. cbn [supported]. rewrite bool_decide_true; [done|]. by apply Hd.
    - destruct (C90_scalar_eq env vs a b mem s s Hv He Ha Hb) as (m & E). exists m. rewrite E. by rewrite bool_decide_true.
  Qed.
  (** Variables and constants: the addresses are compared. *)
  Theorem C90_neq_variables_refuted env vs i j mem p q s : Forall ascii vs -> Forall2 (string_at mem) env vs -> vs !! i = Some s -> vs !! j = Some s ->
    env !! i = Some p -> env !! j = Some q -> exists mem', eval2 junk NEQ env (Var i) (Var j) mem = Ok (mem', RB (bool_decide (p <> q))).
  Proof.
    intros Hv He Hi Hk Ep Eq. exists mem. unfold eval2. cbn [eval]. rewrite (rd_Ok _ _ _ Ep), (rd_Ok _ _ _ Eq). done.
  Qed.
  (** Other comparisons of string scalars are errors, although those of matrices with scalars are not. *)
  Theorem C90_scalar_order_error o env vs a b mem s t : Forall ascii vs -> Forall2 (string_at mem) env vs -> value vs a = Some s -> value vs b = Some t ->
    o <> EQ -> o <> NEQ -> o <> CONCAT -> eval2 junk o env a b mem = Throw.
  Proof.
    intros Hv He Ha Hb H1 H2 H3. destruct (eval2_ok env vs a b mem s t Hv He Ha Hb) as (x & p & q & E & _). rewrite E. by destruct o.
  Qed.
  (** Lower and upper case of a string with a byte that is not ASCII: undefined behaviour (the byte 255 alone is harmless). *)
  Theorem C90_case_refuted f mem p s : string_at mem p s -> Exists (fun c => 128 <= c < 255) s -> c_case junk f mem p = UB /\ str_case f s = UB.
  Proof.
    intros Hs Hx. assert (mapo (on_char f) s = UB) as E.
    { clear Hs. induction s as [|c s IH]; [by apply Exists_nil in Hx|]. cbn [mapo]. unfold on_char at 1. case_decide as Hc; [done|]. cbn [obind].
      apply Exists_cons in Hx as [?|Hx]; [lia|]. by rewrite IH. }
    unfold c_case, str_case. rewrite (cstr_at_ok _ _ _ Hs). cbn [obind]. by rewrite E.
  Qed.
  (** What the compiler computes for constants is what the kernels would compute. != of constants is left to the kernels. *)
  Theorem C90_fold mem p q s t : string_at mem p s -> string_at mem q t ->
    (exists b, fold_str EQ s t = Some (RB b) /\ ew_c junk EQ mem p q = Ok (mem, RB b)) /\
    (exists u mem' r, fold_str CONCAT s t = Some (RS u) /\ ew_c junk CONCAT mem p q = Ok (mem', RS r) /\ string_at mem' r u) /\
    (forall o, o <> EQ -> o <> CONCAT -> fold_str o s t = None).
  Proof.
    intros Hs Ht. split_and!.
    - eexists. split; [done|]. unfold ew_c. cbn [supported]. by rewrite (cstr_at_ok _ _ _ Hs), (cstr_at_ok _ _ _ Ht).
    - eexists _, _, _. split; [done|]. unfold ew_c. cbn [supported]. rewrite (c_concat_ok _ _ _ _ _ Hs Ht). split; [done|]. apply string_at_new.
      rewrite elem_of_app. intros [?|?]; [by apply Hs|by apply Ht].
    - by intros [].
  Qed.
End Scalars.
(** Case of strings in matrices *)
Theorem C90_case s : ascii s -> str_case tolower s = Ok (map tolower s) /\ str_case toupper s = Ok (map toupper s).
Proof. intros H. unfold str_case. by rewrite !mapo_ascii. Qed.

(** The byte 255 is harmless, too. *)
Theorem C90_case_255 f s : Forall (fun c => c < 128 \/ c = 255) s -> str_case f s = Ok (map f s).
Proof.
  unfold str_case. induction 1 as [|c s Hc _ IH]; [done|]. cbn [mapo map]. unfold on_char at 1. rewrite decide_False by lia. cbn [obind]. by rewrite IH.
Qed.
(** A to Z (65 to 90) and a to z (97 to 122) are converted, all other bytes stay. *)
Theorem C90_letters c :
  (forall k, k < 26 -> tolower (65 + k) = 97 + k /\ toupper (97 + k) = 65 + k) /\
  (c < 65 \/ 90 < c -> tolower c = c) /\ (c < 97 \/ 122 < c -> toupper c = c).
Proof. unfold tolower, toupper. split_and!; intros; repeat case_decide; lia. Qed.

(** * Fixed-size strings *)
Lemma strncmp_ok n s : forall t x y, 0 ∉ s -> 0 ∉ t -> length s < n -> strncmp n (s ++ 0 :: x) (t ++ 0 :: y) = Ok (str_compare s t).
Proof.
  revert s. induction n as [|n IH]; intros s t x y Hs Ht L; [lia|].
  destruct s as [|a s], t as [|b t]; cbn [app strncmp str_compare].
  - done.
  - apply not_elem_of_cons in Ht as [H1 _]. rewrite decide_False by done. by destruct b.
  - apply not_elem_of_cons in Hs as [H1 _]. rewrite decide_False by done. by destruct a.
  - apply not_elem_of_cons in Hs as [H1 Hs], Ht as [H2 Ht]. cbn in L. case_decide as E.
    + subst. rewrite decide_False by done. rewrite Nat.compare_refl. apply IH; [done|done|lia].
    + f_equal. destruct (Nat.compare_spec a b); [done|done|done].
Qed.
Lemma fixed_shape s f : fixed_of s = Ok f -> length s < 16 /\ f = s ++ 0 :: replicate (15 - length s) 0 /\ length f = 16.
Proof.
  unfold fixed_of, cap. case_decide as H; [done|]. intros [= <-]. replace (16 - length s) with (S (15 - length s)) by lia. cbn [replicate].
  split_and!; [lia|done|]. rewrite app_length. cbn. rewrite replicate_length. lia.
Qed.
(** Up to 15 characters can be stored and are given back; longer strings are errors. *)
Theorem C90_fixed s : 0 ∉ s ->
  (length s < 16 -> exists f, fixed_of s = Ok f /\ length f = 16 /\ fixed_size f = Ok (length s) /\ fixed_string f = Ok s) /\
  (16 <= length s -> fixed_of s = Throw).
Proof.
  intros H. split; intros L.
  - unfold fixed_of. rewrite decide_False by (unfold cap; lia). eexists. split; [done|].
    destruct (fixed_shape s (s ++ replicate (cap - length s) 0)) as (_ & E & El); [unfold fixed_of; by rewrite decide_False by (unfold cap; lia)|].
    split; [done|]. rewrite E. unfold fixed_string, fixed_size. rewrite cstr_ok by done. cbn [obind]. by rewrite take_app.
  - unfold fixed_of. by rewrite decide_True.
Qed.
(** The same from C strings *)
Theorem C90_fixed_c mem p s : string_at mem p s -> fixed_of_c mem p = fixed_of s.
Proof. intros H. unfold fixed_of_c. by rewrite (cstr_at_ok _ _ _ H). Qed.
Theorem C90_fixed_default : fixed_of [] = Ok fixed_default.
Proof. done. Qed.
(** Comparisons agree with those of the characters; <= and >= are errors. *)
Theorem C90_fixed_cmp o s t f g : 0 ∉ s -> 0 ∉ t -> fixed_of s = Ok f -> fixed_of t = Ok g ->
  match o with
  | EQ | NEQ | LT | GT => exists b, ew_fixed o f g = Ok (RB b) /\ (b = true <-> says o s t)
  | LE | GE | MIN | MAX => ew_fixed o f g = Throw
  | CONCAT => ew_fixed o f g = Ok (RS (s ++ t))
  end.
Proof.
  intros Hs Ht Ef Eg. apply fixed_shape in Ef as (Ls & Ef & _), Eg as (Lt & Eg & _).
  assert (Ec : fixed_compare f g = Ok (str_compare s t)) by (unfold fixed_compare; rewrite Ef, Eg; by apply strncmp_ok).
  assert (Es : f = g <-> s = t).
  { split; [|intros ->; congruence]. intros E. pose proof (cstr_ok s (replicate (15 - length s) 0) Hs) as E1. pose proof (cstr_ok t (replicate (15 - length t) 0) Ht) as E2.
    rewrite <- Ef in E1. rewrite <- Eg in E2. congruence. }
  destruct (C90_matrix LT s t I) as (b1 & E1 & B1). destruct (C90_matrix GT s t I) as (b2 & E2 & B2).
  unfold ew_str in E1, E2. cbn [supported] in E1, E2.
  destruct o; cbn [says]; try done.
  - eexists. split; [done|]. unfold fixed_eq. by rewrite bool_decide_eq_true.
  - eexists. split; [done|]. unfold fixed_eq. rewrite negb_true_iff, bool_decide_eq_false. by rewrite Es.
  - exists b1. split; [|done]. unfold ew_fixed, fixed_lt. cbn [supported]. rewrite Ec. cbn [obind]. rewrite <- E1. by destruct (str_compare s t).
  - exists b2. split; [|done]. unfold ew_fixed, fixed_gt. cbn [supported]. rewrite Ec. cbn [obind]. rewrite <- E2. by destruct (str_compare s t).
  - unfold ew_fixed, fixed_concat. cbn [supported]. rewrite Ef, Eg, !cstr_ok by done. done.
Qed.
(** Equality with a C string of any length *)
Theorem C90_fixed_eq_c s f mem p t : 0 ∉ s -> fixed_of s = Ok f -> string_at mem p t -> fixed_eq_c f mem p = Ok (bool_decide (s = t)).
Proof.
  intros Hs Ef (Ht & r & E). apply fixed_shape in Ef as (Ls & -> & _). unfold fixed_eq_c. rewrite E, strncmp_ok by (done || (unfold cap; lia)). cbn [obind].
  f_equal. pose proof (compare_spec s t) as H. pose proof (compare_before s t). pose proof (compare_before t s).
  destruct (str_compare s t) eqn:Ec; [by rewrite bool_decide_true|rewrite bool_decide_false; [done|]..]; intros ->; by rewrite compare_refl in Ec.
Qed.
(** Case conversion of any bytes, without undefined behaviour *)
Theorem C90_fixed_case s f : 0 ∉ s -> fixed_of s = Ok f ->
  fixed_string (fixed_case tolower f) = Ok (map tolower s) /\ fixed_string (fixed_case toupper f) = Ok (map toupper s).
Proof.
  intros Hs Ef. apply fixed_shape in Ef as (Ls & -> & _). unfold fixed_case. rewrite !map_app. cbn [map].
  change (tolower 0) with 0. change (toupper 0) with 0. unfold fixed_string, fixed_size.
  rewrite !cstr_ok; [cbn [obind]; by rewrite !take_app|..];
    intros (c & E & Hc)%elem_of_list_fmap; [unfold toupper in E|unfold tolower in E]; case_decide; try lia; by subst.
Qed.
(** FAILS: strings with a NUL byte.  They can be made from std::string; what follows the NUL is lost, and two of them can be neither equal nor
    ordered. *)
Theorem C90_fixed_nul_refuted p a b : 0 ∉ p -> a <> b -> length a = length b -> length p + length a < 15 ->
  exists f g, fixed_of (p ++ 0 :: a) = Ok f /\ fixed_of (p ++ 0 :: b) = Ok g /\ fixed_string f = Ok p /\
    ew_fixed EQ f g = Ok (RB false) /\ ew_fixed LT f g = Ok (RB false) /\ ew_fixed GT f g = Ok (RB false).
Proof.
  intros Hp Hn El L. unfold fixed_of. rewrite !decide_False by (unfold cap; rewrite app_length; cbn; lia). eexists _, _. split_and!; [done|done|..].
  - rewrite <- app_assoc. unfold fixed_string, fixed_size. cbn [app]. rewrite cstr_ok by done. cbn [obind]. by rewrite take_app.
  - unfold ew_fixed, fixed_eq. cbn [supported]. rewrite bool_decide_false; [done|]. intros E. rewrite <- !app_assoc in E. apply app_inj_1 in E as [_ E]; [|done].
    cbn in E. injection E as E. apply app_inj_1 in E as [E _]; done.
  - unfold ew_fixed, fixed_lt, fixed_compare. cbn [supported]. rewrite <- !app_assoc. cbn [app]. rewrite strncmp_ok by (done || (unfold cap; lia)). by rewrite compare_refl.
  - unfold ew_fixed, fixed_gt, fixed_compare. cbn [supported]. rewrite <- !app_assoc. cbn [app]. rewrite strncmp_ok by (done || (unfold cap; lia)). by rewrite compare_refl.
Qed.
(** FAILS: printing.  16 bytes are written for every string. *)
Theorem C90_fixed_print_refuted s f : 0 ∉ s -> fixed_of s = Ok f -> fixed_print f = s ++ replicate (16 - length s) 0 /\ fixed_print f <> s.
Proof.
  intros Hs Ef. apply fixed_shape in Ef as (Ls & -> & El). unfold fixed_print. rewrite take_ge by (unfold cap; lia).
  replace (16 - length s) with (S (15 - length s)) by lia. split; [done|]. intros E. rewrite <- E in Ls. lia.
Qed.

(** * Example: the scalars ab and b at addresses 0 and 3; lower(upper(x)) is the same string as x, and yet said to differ from it *)
Definition ex_mem : list nat := [97; 98; 0; 98; 0].
Theorem C90_example :
  Forall ascii [[97; 98]; [98]] /\ Forall2 (string_at ex_mem) [0; 3] [[97; 98]; [98]] /\
  value [[97; 98]; [98]] (Low (Upp (Var 0))) = value [[97; 98]; [98]] (Var 0) /\
  eval2 (fun n => replicate n 7) NEQ [0; 3] (Low (Upp (Var 0))) (Var 0) ex_mem = Ok (ex_mem ++ [65; 66; 0; 97; 98; 0], RB true) /\
  eval2 (fun n => replicate n 7) EQ [0; 3] (Low (Upp (Var 0))) (Var 0) ex_mem = Ok (ex_mem ++ [65; 66; 0; 97; 98; 0], RB true) /\
  eval2 (fun n => replicate n 7) CONCAT [0; 3] (Upp (Var 1)) (Var 0) ex_mem = Ok (ex_mem ++ [66; 0; 66; 97; 98; 0], RS 7) /\
  ew_str_c LE [97] ex_mem 0 = Ok (RB true) /\
  (exists f g, fixed_of [97; 98] = Ok f /\ fixed_of [98] = Ok g /\ ew_fixed LT f g = Ok (RB true) /\ fixed_string (fixed_case toupper f) = Ok [65; 66]).
Proof.
  split_and!; try reflexivity.
  - repeat constructor.
  - repeat constructor; try (intros H; repeat (apply elem_of_cons in H as [H|H]; [done|]); by apply elem_of_nil in H); eexists; reflexivity.
  - eexists _, _. split_and!; reflexivity.
Qed.

Print Assumptions C90_matrix.
Print Assumptions C90_neq_refuted.
Print Assumptions C90_scalar_concat.
Print Assumptions C90_fixed_cmp.
Print Assumptions C90_fixed_nul_refuted.
Print Assumptions C90_case_refuted.
Print Assumptions C90_fold.
