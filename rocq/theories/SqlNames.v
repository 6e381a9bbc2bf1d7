(** Names, labels and cells. *)
From stdpp Require Import base numbers sorting list strings.
From Coq Require Import Ascii.
From Verif Require Import CppBase SqlSyntax SqlModel SqlSpec.
Local Open Scope string_scope.
Local Open Scope list_scope.
Local Arguments String.append !_ _ : simpl nomatch.

(** * Text *)
Lemma append_nil_r s : s +++ "" = s.
Proof. induction s; cbn; [done|]. by f_equal. Qed.
Lemma append_assoc s t u : (s +++ t) +++ u = s +++ t +++ u.
Proof. induction s; cbn; [done|]. by f_equal. Qed.
Lemma append_inj_l s t u : s +++ t = s +++ u -> t = u.
Proof. induction s; cbn; [done|]. intros [= H]. auto. Qed.
(** characters of identifiers *)
Lemma id_char_neq c d : id_char c = true -> id_char d = false -> c <> d.
Proof. intros H1 H2 ->. congruence. Qed.
Lemma ids_no_dot s : id_chars s = true -> find_dot s = None.
Proof. induction s as [|c s IH]; cbn [id_chars find_dot]; [done|]. intros [H1 H2]%andb_true_iff. destruct (ascii_dec c "."); [subst; done|]. auto. Qed.
Lemma before_dot_app p c : id_chars p = true -> before_dot (p +++ "." +++ c) = p.
Proof. induction p as [|d p IH]; [done|]. cbn [id_chars before_dot String.append]. intros [H1 H2]%andb_true_iff. destruct (ascii_dec d "."); [subst; done|]. f_equal. auto. Qed.
Lemma find_dot_app p c : id_chars p = true -> find_dot (p +++ "." +++ c) = Some c.
Proof. induction p as [|d p IH]; [done|]. cbn [id_chars find_dot String.append]. intros [H1 H2]%andb_true_iff. destruct (ascii_dec d "."); [subst; done|]. auto. Qed.
Lemma behind_dot_app p c : id_chars p = true -> behind_dot (p +++ "." +++ c) = c.
Proof. intros H. unfold behind_dot. by rewrite find_dot_app. Qed.
Lemma dot_inj p c q d : id_chars p = true -> id_chars q = true -> p +++ "." +++ c = q +++ "." +++ d -> p = q /\ c = d.
Proof.
  intros Hp Hq E. split.
  - rewrite <- (before_dot_app p c Hp), E. by apply before_dot_app.
  - pose proof (find_dot_app p c Hp) as H. rewrite E, (find_dot_app q d Hq) in H. congruence.
Qed.
Lemma set_prefix_eq p l : set_prefix p l = p +++ "." +++ behind_dot l.
Proof. unfold set_prefix, behind_dot. by destruct (find_dot l). Qed.
Lemma last_char_app s c : last_char (s +++ String c "") = Some c.
Proof. induction s as [|d s IH]; [done|]. cbn [String.append last_char]. destruct (s +++ String c "") eqn:E; [by destruct s|]. done. Qed.
Lemma last_char_app' s t c : last_char t = Some c -> last_char (s +++ t) = Some c.
Proof. intros H. induction s as [|d s IH]; [done|]. cbn [String.append last_char]. destruct (s +++ t) eqn:E; [|done]. destruct s; cbn in E; [by subst|done]. Qed.
Lemma last_char_ids s : s <> "" -> id_chars s = true -> exists c, last_char s = Some c /\ id_char c = true.
Proof.
  induction s as [|d s IH]; [done|]. intros _. cbn [id_chars]. intros [H1 H2]%andb_true_iff. cbn [last_char]. destruct s as [|e s]; [by exists d|]. by apply IH.
Qed.
Lemma length_app s t : String.length (s +++ t) = (String.length s + String.length t)%nat.
Proof. induction s; cbn; [done|]. by f_equal. Qed.
Lemma length_ne s : s <> "" -> (1 <= String.length s)%nat.
Proof. destruct s; cbn; [done|lia]. Qed.
Lemma ends_dot_star_ids s : id_chars s = true -> ends_dot_star s = false.
Proof. induction s as [|c s IH]; [done|]. cbn [id_chars ends_dot_star]. intros [H1 H2]%andb_true_iff. destruct (string_dec _ _) as [[= -> ->]|]; [done|]. auto. Qed.
Lemma ends_dot_star_ident p c : id_chars p = true -> id_chars c = true -> ends_dot_star (p +++ "." +++ c) = false.
Proof.
  induction p as [|d p IH]; cbn [id_chars String.append ends_dot_star].
  - intros _ Hc. destruct (string_dec _ _) as [[= ->]|]; [done|]. by apply ends_dot_star_ids.
  - intros [H1 H2]%andb_true_iff Hc. destruct (string_dec _ _) as [[= -> _]|]; [done|]. auto.
Qed.
Lemma ends_dot_star_star p : id_chars p = true -> ends_dot_star (p +++ ".*") = true.
Proof. induction p as [|d p IH]; cbn [id_chars String.append ends_dot_star]; [by destruct (string_dec _ _)|]. intros [H1 H2]%andb_true_iff. destruct (string_dec _ _); [done|]. auto. Qed.
Lemma identifier_ne_star c : id_chars c = true -> c <> "*".
Proof. intros H ->. done. Qed.

(** numbers are written differently *)
Definition num_char (c : ascii) : bool := let n := nat_of_ascii c in ((48 <=? n) && (n <=? 57))%nat.
Fixpoint num_chars (s : string) : bool := match s with EmptyString => true | String c s => num_char c && num_chars s end.
Lemma num_chars_app s t : num_chars (s +++ t) = num_chars s && num_chars t.
Proof. induction s as [|c s IH]; cbn; [done|]. by rewrite IH, andb_assoc. Qed.
Lemma digit_num n : (n < 10)%nat -> num_chars (digit n) = true.
Proof. intros H. do 10 (destruct n as [|n]; [done|]). lia. Qed.
Lemma decimal_num fuel n : (n < fuel)%nat -> num_chars (decimal_fuel fuel n) = true.
Proof.
  revert n. induction fuel as [|fuel IH]; intros n Hn; [lia|]. cbn [decimal_fuel]. destruct (Nat.ltb_spec n 10); [by apply digit_num|].
  rewrite num_chars_app, IH, digit_num; [done|apply Nat.mod_upper_bound; lia|]. enough (n / 10 < n)%nat by lia. apply Nat.div_lt; lia.
Qed.
Fixpoint value_of (acc : nat) (s : string) : nat := match s with EmptyString => acc | String c s => value_of (acc * 10 + (nat_of_ascii c - 48)) s end.
Lemma value_app s t acc : value_of acc (s +++ t) = value_of (value_of acc s) t.
Proof. revert acc. induction s as [|c s IH]; intros acc; cbn; [done|]. apply IH. Qed.
Lemma digit_value n acc : (n < 10)%nat -> value_of acc (digit n) = (acc * 10 + n)%nat.
Proof. intros H. unfold digit. cbn [value_of]. rewrite nat_ascii_embedding by lia. lia. Qed.
Lemma decimal_value fuel n : (n < fuel)%nat -> value_of 0 (decimal_fuel fuel n) = n.
Proof.
  revert n. induction fuel as [|fuel IH]; intros n Hn; [lia|]. cbn [decimal_fuel]. destruct (Nat.ltb_spec n 10); [by apply digit_value|].
  rewrite value_app, IH, digit_value; [|apply Nat.mod_upper_bound; lia|enough (n / 10 < n)%nat by lia; apply Nat.div_lt; lia].
  pose proof (Nat.div_mod_eq n 10). lia.
Qed.
Lemma decimal_inj n m : decimal n = decimal m -> n = m.
Proof. unfold decimal. intros E. rewrite <- (decimal_value (S n) n), E by lia. by apply decimal_value; lia. Qed.
Lemma num_sep s t u v : num_chars s = true -> num_chars t = true -> s +++ "_" +++ u = t +++ "_" +++ v -> s = t.
Proof.
  revert t. induction s as [|c s IH]; intros [|d t] Hs Ht; cbn [String.append num_chars] in *; [done| | |].
  - intros [= <- _]. done.
  - intros [= -> _]. done.
  - apply andb_true_iff in Hs as [H1 H2], Ht as [H3 H4]. intros [= -> E]. f_equal. by apply IH.
Qed.
Lemma group_name_inj n m t u : group_name n t = group_name m u -> n = m.
Proof. unfold group_name. intros E%append_inj_l. apply num_sep in E; [by apply decimal_inj|apply decimal_num; lia..]. Qed.
Lemma agg_label_inj f g n m t u : agg_label f (group_name n t) = agg_label g (group_name m u) -> n = m /\ f = g.
Proof.
  unfold agg_label. intros E. assert (f = g) as -> by (destruct f, g; try done; by inversion E).
  split; [|done]. do 2 apply append_inj_l in E. assert (group_name n (t +++ ")") = group_name m (u +++ ")")) as E'.
  { revert E. unfold group_name. rewrite !append_assoc. done. }
  by apply group_name_inj in E'.
Qed.
(** the labels of aggregates are neither labels of columns nor "f.*" *)
Lemma agg_label_dot f t p c : id_chars p = true -> agg_label f t <> p +++ "." +++ c.
Proof.
  intros Hp E. unfold agg_label in E. assert (forall s u, id_chars p = true -> s +++ "(" +++ u = p +++ "." +++ c -> id_chars s = true -> False) as H.
  { clear. induction p as [|d p IH]; intros s u Hp E Hs.
    - destruct s as [|e s]; cbn in E; [done|]. injection E as -> _. done.
    - cbn [id_chars] in Hp. apply andb_true_iff in Hp as [H1 H2]. destruct s as [|e s]; cbn in E; [injection E as <- _; done|].
      injection E as -> E. cbn [id_chars] in Hs. apply andb_true_iff in Hs as [H3 H4]. exact (IH s u H2 E H4). }
  eapply H; [done|exact E|by destruct f].
Qed.
Lemma append_last_ne s c d : c <> d -> s +++ String c "" <> String d "".
Proof. intros H E. pose proof (last_char_app s c) as L. rewrite E in L. cbn in L. congruence. Qed.
Lemma find_dot_last s r c : last_char s = Some c -> find_dot s = Some r -> r = "" \/ last_char r = Some c.
Proof.
  revert r. induction s as [|d s IH]; intros r; [done|]. cbn [find_dot]. intros Hl. destruct (ascii_dec d "."); [intros [= ->]|].
  - destruct r as [|x r]; [by left|]. right. done.
  - intros Hf. apply IH; [|done]. destruct s; [done|]. done.
Qed.
Lemma agg_label_behind f t : behind_dot (agg_label f t) <> "*".
Proof.
  intros E. assert (last_char (agg_label f t) = Some ")"%char) as L.
  { unfold agg_label. do 2 apply last_char_app'. apply last_char_app. }
  unfold behind_dot in E. destruct (find_dot _) as [r|] eqn:Ef; [|rewrite E in L; done]. destruct (find_dot_last _ _ _ L Ef) as [->|H]; [done|]. rewrite E in H. done.
Qed.
Lemma group_name_dot n t p c : id_chars p = true -> ~ reserved p -> group_name n t <> p +++ "." +++ c.
Proof.
  intros Hp Hr E. unfold group_name in E. apply Hr.
  do 6 (destruct p as [|? p]; cbn in E; [done|]; injection E as <- E). by exists p.
Qed.

(** * Labels and cells *)
Lemma index_cons_eq l ls : index_of l (l :: ls) = Some 0.
Proof. unfold index_of. cbn. by rewrite decide_True. Qed.
Lemma index_cons_ne l l' ls : l' <> l -> index_of l (l' :: ls) = S <$> index_of l ls.
Proof. intros H. unfold index_of. cbn. rewrite decide_False by done. by destruct (list_find _ ls) as [[]|]. Qed.
Lemma index_lookup l ls i : index_of l ls = Some i -> ls !! i = Some l.
Proof. unfold index_of. destruct (list_find _ ls) as [[j x]|] eqn:E; [|done]. intros [= <-]. apply list_find_Some in E as (E & -> & _). done. Qed.
Lemma index_some l ls : l ∈ ls -> exists i, index_of l ls = Some i.
Proof. intros H. unfold index_of. destruct (list_find_elem_of (fun l' => l' = l) ls l H eq_refl) as [[j x] ->]. by eexists. Qed.
Lemma index_none l ls : l ∉ ls -> index_of l ls = None.
Proof. intros H. unfold index_of. destruct (list_find _ ls) as [[j x]|] eqn:E; [|done]. apply list_find_Some in E as (E & -> & _). exfalso. apply H. by eapply elem_of_list_lookup_2. Qed.
Lemma index_nodup l ls i : NoDup ls -> ls !! i = Some l -> index_of l ls = Some i.
Proof.
  intros Hn Hi. destruct (index_some l ls) as (j & Hj); [by eapply elem_of_list_lookup_2|]. rewrite Hj. f_equal. eapply NoDup_lookup; [done| |done]. by apply index_lookup.
Qed.
Lemma index_app_l l ls ls' i : index_of l ls = Some i -> index_of l (ls ++ ls') = Some i.
Proof.
  revert i. induction ls as [|k ls IH]; intros i; [done|]. cbn [app]. destruct (decide (k = l)) as [->|H]; [by rewrite !index_cons_eq|]. rewrite !index_cons_ne by done.
  destruct (index_of l ls) as [j|] eqn:E; [|done]. intros [= <-]. by rewrite (IH j).
Qed.
Lemma index_app_r l ls ls' : l ∉ ls -> index_of l (ls ++ ls') = (fun i => length ls + i)%nat <$> index_of l ls'.
Proof.
  induction ls as [|k ls IH]; intros H; cbn [app length]; [by destruct (index_of l ls')|]. apply not_elem_of_cons in H as [H1 H2]. rewrite index_cons_ne by done. rewrite IH by done.
  by destruct (index_of l ls').
Qed.

Section cells.
  Context {V : Type}.
  Definition cell (ls : list string) (r : list V) (l : string) : option V := match index_of l ls with Some i => r !! i | None => None end.
  Lemma cell_in ls r l v : cell ls r l = Some v -> l ∈ ls.
  Proof. unfold cell. destruct (index_of l ls) eqn:E; [|done]. intros _. apply index_lookup in E. by eapply elem_of_list_lookup_2. Qed.
  Lemma cell_app_l ls ls' (r r' : list V) l v : cell ls r l = Some v -> cell (ls ++ ls') (r ++ r') l = Some v.
  Proof. unfold cell. destruct (index_of l ls) eqn:E; [|done]. intros H. rewrite (index_app_l _ _ _ _ E). by apply lookup_app_l_Some. Qed.
  Lemma cell_app_r ls ls' (r r' : list V) l : length ls = length r -> l ∉ ls -> cell (ls ++ ls') (r ++ r') l = cell ls' r' l.
  Proof. intros Hl H. unfold cell. rewrite index_app_r by done. destruct (index_of l ls'); cbn; [|done]. rewrite Hl. rewrite lookup_app_r by lia. f_equal. lia. Qed.
  Lemma cell_nodup ls (r : list V) i l v : NoDup ls -> ls !! i = Some l -> r !! i = Some v -> cell ls r l = Some v.
  Proof. intros Hn Hl Hr. unfold cell. by rewrite (index_nodup _ _ _ Hn Hl). Qed.
  Lemma cell_prefix p cs (r : list V) c : id_chars p = true -> length r = length cs -> cell (map (fun c => ident_text (Some p) c) cs) r (ident_text (Some p) c) = assoc c (zip cs r).
  Proof.
    intros Hp. revert r. induction cs as [|d cs IH]; intros [|v r] Hl; cbn [length] in Hl; try lia; [done|]. cbn [map zip zip_with assoc]. unfold cell.
    destruct (string_dec d c) as [->|H]; [by rewrite index_cons_eq|]. rewrite index_cons_ne.
    - specialize (IH r ltac:(lia)). unfold cell in IH. rewrite <- IH. by destruct (index_of _ (map _ cs)).
    - cbn. intros E. apply H. by apply (dot_inj p d p c) in E as [_ ?].
  Qed.
  Lemma assoc_zip_some cs (r : list V) c : length r = length cs -> c ∈ cs -> exists v, assoc c (zip cs r) = Some v.
  Proof.
    revert r. induction cs as [|d cs IH]; intros [|v r] Hl H; cbn [length] in Hl; try lia; [by apply elem_of_nil in H|]. cbn.
    destruct (string_dec d c); [by exists v|]. apply IH; [lia|]. apply elem_of_cons in H as [->|H]; done.
  Qed.
End cells.
Lemma assoc_app {B} n (l l' : list (string * B)) : assoc n (l ++ l') = match assoc n l with Some b => Some b | None => assoc n l' end.
Proof. induction l as [|[m b] l IH]; cbn; [done|]. by destruct (string_dec m n). Qed.
Lemma assoc_none {B} n (l : list (string * B)) : n ∉ map fst l -> assoc n l = None.
Proof. induction l as [|[m b] l IH]; cbn; [done|]. intros [H1 H2]%not_elem_of_cons. destruct (string_dec m n); [by subst|]. auto. Qed.
Lemma assoc_some_in {B} n (l : list (string * B)) b : assoc n l = Some b -> (n, b) ∈ l.
Proof. induction l as [|[m c] l IH]; cbn; [done|]. destruct (string_dec m n) as [->|]; [intros [= ->]; left|]. intros H. right. auto. Qed.
Lemma assoc_nodup {B} n (l : list (string * B)) b : NoDup (map fst l) -> (n, b) ∈ l -> assoc n l = Some b.
Proof.
  induction l as [|[m c] l IH]; cbn; intros Hn H; [by apply elem_of_nil in H|]. apply NoDup_cons in Hn as [H1 H2]. apply elem_of_cons in H as [[= -> ->]|H]; [by destruct (string_dec m m)|].
  destruct (string_dec m n) as [->|]; [|auto]. exfalso. apply H1. change n with (fst (n, b)). apply elem_of_list_In, in_map, elem_of_list_In. done.
Qed.
