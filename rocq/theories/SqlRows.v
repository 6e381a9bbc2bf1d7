(** Orders by several keys, and rows of several tables as rows of one frame. *)
From stdpp Require Import base numbers sorting list strings.
From Coq Require Import Ascii.
From Verif Require Import CppBase OrderSpec SqlSyntax SqlModel SqlSpec SqlSort SqlNames.
Local Open Scope string_scope.
Local Open Scope list_scope.

(** * Lists *)
Lemma forall2_filter {A B} (R : A -> B -> Prop) (p : A -> bool) (q : B -> bool) l l' : (forall x y, R x y -> p x = q y) -> Forall2 R l l' ->
  Forall2 R (filter (fun x => p x = true) l) (filter (fun y => q y = true) l').
Proof. intros H. induction 1 as [|x y l l' Hxy Hl IH]; [constructor|]. rewrite !filter_cons, (H _ _ Hxy). destruct (decide (q y = true)); [by constructor|done]. Qed.
Lemma forall2_elem_r {A B} (R : A -> B -> Prop) l l' : Forall2 R l l' -> Forall2 (fun x y => R x y /\ x ∈ l /\ y ∈ l') l l'.
Proof.
  induction 1 as [|x y l l' Hxy Hl IH]; constructor; [repeat split; [done|left..]|]. eapply Forall2_impl; [exact IH|]. intros a b (H & Ha & Hb). repeat split; [done|by right..].
Qed.
Lemma forall2_self {A} (P : A -> Prop) (l : list A) : (forall x, x ∈ l -> P x) -> Forall2 (fun x y => x = y /\ P x) l l.
Proof. intros H. apply Forall_Forall2_diag. apply Forall_forall. intros x Hx. auto. Qed.
Lemma forall2_eq {A} (P : A -> Prop) (l l' : list A) : Forall2 (fun x y => x = y /\ P x) l l' -> l = l'.
Proof. induction 1 as [|x y l l' [-> _] _ IH]; congruence. Qed.
Lemma forall2_mapM {A B} (f : A -> option B) l l' : Forall2 (fun x y => f x = Some y) l l' <-> mapM f l = Some l'.
Proof. symmetry. apply mapM_Some. Qed.
Lemma forall2_exists {A B} (R : A -> B -> Prop) l : (forall x, x ∈ l -> exists y, R x y) -> exists l', Forall2 R l l'.
Proof.
  induction l as [|x l IH]; intros H; [by exists []|]. destruct (H x) as (y & Hy); [left|]. destruct IH as (l' & Hl); [intros z Hz; apply H; by right|]. exists (y :: l'). by constructor.
Qed.
Lemma omapM_ok {A B} (f : A -> outcome B) l l' : Forall2 (fun x y => f x = Ok y) l l' -> omapM f l = Ok l'.
Proof. induction 1 as [|x y l l' H Hl IH]; [done|]. cbn [omapM]. rewrite H. cbn [obind]. by rewrite IH. Qed.

(** * Orders that agree on a list *)
Section ext.
  Context {A : Type} (b c : A -> A -> bool) (l : list A) (H : forall x y, x ∈ l -> y ∈ l -> b x y = c x y).
  Lemma same_ext x y : x ∈ l -> y ∈ l -> same b x y = same c x y.
  Proof. intros Hx Hy. unfold same. by rewrite !H. Qed.
  Lemma filter_same_ext x (l' : list A) : x ∈ l -> (forall y, y ∈ l' -> y ∈ l) -> filter (fun y => same b x y = true) l' = filter (fun y => same c x y = true) l'.
  Proof.
    intros Hx. induction l' as [|y l' IH]; intros Hl; [done|]. rewrite !filter_cons. rewrite IH by (intros z Hz; apply Hl; by right).
    rewrite (same_ext x y Hx (Hl y ltac:(left))). done.
  Qed.
  Lemma sorted_ext {B} (R S : B -> B -> Prop) (k : list B) : (forall x y, x ∈ k -> y ∈ k -> R x y -> S x y) -> StronglySorted R k -> StronglySorted S k.
  Proof.
    intros Hk. induction 1 as [|x k Hs IH Hf]; constructor.
    - apply IH. intros y z Hy Hz. apply Hk; by right.
    - rewrite Forall_forall in Hf |- *. intros y Hy. apply Hk; [left|by right|]. by apply Hf.
  Qed.
  Lemma in_order_ext p : in_order b l p -> in_order c l p.
  Proof.
    intros (H1 & H2 & H3). assert (forall x, x ∈ p -> x ∈ l) as Hp by (intros x; by rewrite H1). split; [done|]. split.
    - eapply sorted_ext; [|exact H2]. cbn. intros x y Hx Hy. rewrite H by auto. done.
    - intros x Hx. rewrite <- !filter_same_ext by auto. auto.
  Qed.
  Lemma groups_ext gs : SqlSpec.groups_of b l gs -> SqlSpec.groups_of c l gs.
  Proof.
    intros (H1 & H2 & H3). assert (forall g x, g ∈ gs -> x ∈ g -> x ∈ l) as Hp.
    { intros g x Hg Hx. destruct (H1 g Hg) as (y & g' & -> & _ & E). rewrite E in Hx. by apply elem_of_list_filter in Hx as [_ ?]. }
    repeat split.
    - intros g Hg. destruct (H1 g Hg) as (x & g' & -> & Hx & E). exists x, g'. split; [done|]. split; [done|]. rewrite E at 1. by apply filter_same_ext.
    - done.
    - eapply sorted_ext; [|exact H3]. cbn. intros g h Hg Hh Hb x y Hx Hy. rewrite <- H by eauto. auto.
  Qed.
  Lemma ssort_ext : ssort b l = ssort c l.
  Proof. apply (forall2_eq (fun x => x ∈ l)). apply ssort_rel; [|by apply forall2_self]. intros x x' y y' [-> Hx] [-> Hy]. auto. Qed.
  Lemma runs_ext : runs b (ssort b l) = runs c (ssort c l).
  Proof.
    assert (Forall2 (Forall2 (fun x y => x = y /\ x ∈ l)) (runs b (ssort b l)) (runs c (ssort c l))) as E.
    { apply runs_rel; [intros x x' y y' [-> Hx] [-> Hy]; auto|]. apply ssort_rel; [intros x x' y y' [-> Hx] [-> Hy]; auto|]. by apply forall2_self. }
    induction E as [|g h gs hs Hg _ IH]; [done|]. rewrite IH. by rewrite (forall2_eq _ _ _ Hg).
  Qed.
End ext.

(** * Orders by keys that may be missing *)
Section lex.
  Context {A V : Type} (lt : V -> V -> bool) (W : weak_order lt).
  Definition olt (a b : option V) : bool := match a, b with Some a, Some b => lt a b | None, Some _ => true | _, None => false end.
  Lemma olt_weak : weak_order olt.
  Proof.
    destruct W as (W1 & W2 & W3). split; [|split].
    - intros [x|]; cbn; auto.
    - intros [x|] [y|] [z|]; cbn; try done; apply W2.
    - intros [x|] [y|] [z|]; cbn; auto.
  Qed.
  Fixpoint lex (ks : list ((A -> option V) * bool)) (x y : A) : bool :=
    match ks with
    | [] => false
    | (k, asc) :: ks =>
        if (if asc : bool then olt (k x) (k y) else olt (k y) (k x)) then true else if (if asc : bool then olt (k y) (k x) else olt (k x) (k y)) then false else lex ks x y
    end.
  Lemma lex_weak ks : weak_order (lex ks).
  Proof.
    pose proof olt_weak as OW.
    induction ks as [|[k asc] ks IH]; [split; [done|]; split; done|].
    set (m := fun x y : A => if asc : bool then olt (k x) (k y) else olt (k y) (k x)).
    assert (weak_order m) as M.
    { destruct OW as (W1 & W2 & W3). unfold m. destruct asc; (split; [intros; apply W1|split]); [intros x y z; apply W2|intros x y z; apply W3|intros x y z H1 H2; by apply (W2 _ (k y))|].
      intros x y z H. destruct (W3 _ (k y) _ H); auto. }
    assert (forall x y, lex ((k, asc) :: ks) x y = if m x y then true else if m y x then false else lex ks x y) as E.
    { intros x y. cbn [lex]. unfold m. by destruct asc. }
    clearbody m. destruct IH as (I1 & I2 & I3). split; [|split].
    - intros x. rewrite E, (irr m M). apply I1.
    - intros x y z. rewrite !E. destruct (m x y) eqn:Exy.
      + intros _. destruct (m y z) eqn:Eyz; [by rewrite (lt_tr m M x y z)|]. destruct (m z y) eqn:Ezy; [done|]. intros _.
        rewrite <- (lt_same_r m M y z x), Exy; [done|]. by apply same_iff.
      + destruct (m y x) eqn:Eyx; [done|]. assert (same m x y = true) as S by (by apply same_iff). rewrite (lt_same_l m M x y z S), (lt_same_r m M x y z S). intros H1.
        destruct (m y z); [done|]. destruct (m z y); [done|]. eauto.
    - intros x y z. rewrite !E. destruct (m x z) eqn:Exz.
      + intros _. destruct M as (_ & _ & M3). destruct (M3 x y z Exz) as [->| ->]; auto.
      + destruct (m z x) eqn:Ezx; [done|]. intros H. assert (same m x z = true) as S by (by apply same_iff). rewrite <- (lt_same_l m M x z y S), <- (lt_same_r m M x z y S).
        destruct (m x y); [by left|]. destruct (m y x); [by right|]. auto.
  Qed.
End lex.

Section rows.
  Context {V : Type} (O : ops V).
  Notation tuple := (@tuple V).
  (** * Orders of tuples, groups and rows *)
  Definition has_keys (ks : list (ident * bool)) (t : tuple) : Prop := forall k, k ∈ ks -> is_Some (value_at t (fst k)).
  Definition head_at (g : list tuple) (i : ident) : option V := match g with t :: _ => value_at t i | [] => None end.
  Lemma key_before_lex ks t u : has_keys ks t -> has_keys ks u ->
    key_before O ks t u = lex (vlt O) (map (fun k => ((fun t => value_at t (fst k)), snd k)) ks) t u.
  Proof.
    induction ks as [|[i asc] ks IH]; intros Ht Hu; [done|]. cbn [key_before map lex fst snd]. destruct (Ht (i, asc) ltac:(left)) as [a Ea], (Hu (i, asc) ltac:(left)) as [b Eb]. cbn [fst] in *.
    rewrite Ea, Eb. cbn [olt]. rewrite IH; [done|intros k Hk; apply Ht; by right|intros k Hk; apply Hu; by right].
  Qed.
  Lemma head_before_lex ks g h : g <> [] -> h <> [] -> (forall t, t ∈ g -> has_keys ks t) -> (forall t, t ∈ h -> has_keys ks t) ->
    head_before O ks g h = lex (vlt O) (map (fun k => ((fun g => head_at g (fst k)), snd k)) ks) g h.
  Proof.
    destruct g as [|t g], h as [|u h]; try done. intros _ _ Hg Hh. cbn [head_before]. rewrite key_before_lex; [|apply Hg; left|apply Hh; left].
    clear. induction ks as [|[i asc] ks IH]; [done|]. cbn [map lex fst snd head_at]. by rewrite IH.
  Qed.
  Lemma row_before_lex ks r s : (forall k, k ∈ ks -> is_Some (r !! fst k)) -> (forall k, k ∈ ks -> is_Some (s !! fst k)) ->
    row_before O ks r s = lex (vlt O) (map (fun k => ((fun r : list V => r !! fst k), snd k)) ks) r s.
  Proof.
    induction ks as [|[i asc] ks IH]; intros Ht Hu; [done|]. cbn [row_before map lex fst snd]. destruct (Ht (i, asc) ltac:(left)) as [a Ea], (Hu (i, asc) ltac:(left)) as [b Eb]. cbn [fst] in *.
    rewrite Ea, Eb. cbn [olt]. rewrite IH; [done|intros k Hk; apply Ht; by right|intros k Hk; apply Hu; by right].
  Qed.
  Lemma row_before_key ks ks' r s t u : Forall2 (fun k k' => snd k = snd k' /\ r !! fst k = value_at t (fst k') /\ s !! fst k = value_at u (fst k')) ks ks' ->
    row_before O ks r s = key_before O ks' t u.
  Proof. induction 1 as [|[i a] [j b] ks ks' (H1 & H2 & H3) _ IH]; [done|]. cbn [row_before key_before fst snd] in *. by rewrite H1, H2, H3, IH. Qed.
  Lemma row_lt_before (r s : list V) r0 s0 : length r = length s -> length r0 = length s0 ->
    row_lt O r s = row_before O (map (fun i => (i, true)) (seq (length r0) (length r))) (r0 ++ r) (s0 ++ s).
  Proof.
    revert s r0 s0. induction r as [|a r IH]; intros [|b s] r0 s0 H1 H0; cbn [length] in H1; try lia; [done|]. cbn [row_lt length seq map row_before fst snd].
    rewrite (list_lookup_middle r0 r a (length r0)) by done. rewrite (list_lookup_middle s0 s b (length r0)) by done. destruct (vlt O a b); [done|]. destruct (vlt O b a); [done|].
    rewrite (IH s (r0 ++ [a]) (s0 ++ [b])); [|lia|rewrite !app_length; cbn [length]; lia]. rewrite app_length; cbn [length]; rewrite Nat.add_1_r, <- !app_assoc. done.
  Qed.

  Context (W : weak_order (vlt O)).
  Lemma key_sort ks (l : list tuple) : (forall t, t ∈ l -> has_keys ks t) -> in_order (key_before O ks) l (ssort (key_before O ks) l).
  Proof.
    intros H. rewrite (ssort_ext _ _ _ (fun t u Ht Hu => key_before_lex ks t u (H t Ht) (H u Hu))). eapply in_order_ext; [|apply ssort_ok, lex_weak, W]. intros t u Ht Hu. symmetry. apply key_before_lex; auto.
  Qed.
  Lemma key_groups ks (l : list tuple) : (forall t, t ∈ l -> has_keys ks t) -> SqlSpec.groups_of (key_before O ks) l (runs (key_before O ks) (ssort (key_before O ks) l)).
  Proof.
    intros H. rewrite (runs_ext _ _ _ (fun t u Ht Hu => key_before_lex ks t u (H t Ht) (H u Hu))). eapply groups_ext; [|apply runs_groups, lex_weak, W]. intros t u Ht Hu. symmetry. apply key_before_lex; auto.
  Qed.
  Lemma head_sort ks (gs : list (list tuple)) : (forall g, g ∈ gs -> g <> [] /\ forall t, t ∈ g -> has_keys ks t) -> in_order (head_before O ks) gs (ssort (head_before O ks) gs).
  Proof.
    intros H. rewrite (ssort_ext _ _ _ (fun g h Hg Hh => head_before_lex ks g h (proj1 (H g Hg)) (proj1 (H h Hh)) (proj2 (H g Hg)) (proj2 (H h Hh)))).
    eapply in_order_ext; [|apply ssort_ok, lex_weak, W]. intros g h Hg Hh. symmetry. apply head_before_lex; by apply H.
  Qed.
  (** the first rows of the groups of equal rows *)
  Lemma distinct_rows n (l : list (list V)) : Forall (fun r => length r = n) l ->
    exists gs, runs (row_before O (map (fun i => (i, true)) (seq 0 n))) (ssort (row_before O (map (fun i => (i, true)) (seq 0 n))) l) = gs /\ Forall (fun g => exists x g', g = x :: g' /\ length x = n) gs /\
      forall rs, Forall2 (fun g r => head g = Some r) gs rs -> distinct_of (row_lt O) l rs /\ StronglySorted (fun r s => row_lt O r s = true) rs.
  Proof.
    intros Hl. eexists. split; [done|]. rewrite Forall_forall in Hl.
    assert (forall r s, r ∈ l -> s ∈ l -> row_before O (map (fun i => (i, true)) (seq 0 n)) r s = row_lt O r s) as E.
    { intros r s Hr Hs. rewrite (row_lt_before r s [] []); [|by rewrite (Hl r Hr), (Hl s Hs)|done]. cbn [length app]. by rewrite (Hl r Hr). }
    assert (SqlSpec.groups_of (row_lt O) l (runs (row_lt O) (ssort (row_lt O) l))) as G.
    { assert (forall r s, r ∈ l -> s ∈ l -> row_lt O r s = lex (vlt O) (map (fun k => ((fun r : list V => r !! fst k), snd k)) (map (fun i => (i, true)) (seq 0 n))) r s) as E'.
      { intros r s Hr Hs. rewrite <- E by done. apply row_before_lex; intros k (i & -> & Hi)%elem_of_list_fmap; cbn; apply lookup_lt_is_Some; rewrite Hl by done; apply elem_of_list_In, in_seq in Hi; lia. }
      rewrite (runs_ext _ _ _ E'). eapply groups_ext; [|apply runs_groups, lex_weak, W]. intros r s Hr Hs. symmetry. auto. }
    rewrite (runs_ext _ _ _ E). set (gs := runs _ _) in *. clearbody gs. destruct G as (G1 & G2 & G3).
    split; [apply Forall_forall; intros g Hg; destruct (G1 g Hg) as (x & g' & -> & Hx & _); exists x, g'; auto|].
    intros rs Hrs.
    assert (StronglySorted (fun r s => row_lt O r s = true) rs) as Hs.
    { clear G1 G2. revert rs Hrs. induction G3 as [|g gs Hs IH Hf]; intros rs Hrs; inversion Hrs as [|? r ? rs' Hr Hrs' E1 E2]; subst; constructor; [by apply IH|].
      apply Forall_forall. intros s Hs'. apply elem_of_list_lookup in Hs' as (i & Hi). destruct (Forall2_lookup_r _ _ _ _ _ Hrs' Hi) as (h & Hh & Eh). rewrite Forall_lookup in Hf.
      apply (Hf i h Hh); [destruct g; [done|]; injection Hr as ->; left|destruct h; [done|]; injection Eh as ->; left]. }
    assert (forall r s, row_lt O r s = true -> same (row_lt O) r s = false) as Hne by (intros r s H; unfold same; by rewrite H).
    split; [|done]. repeat split.
    - intros r Hr. apply elem_of_list_lookup in Hr as (i & Hi). destruct (Forall2_lookup_r _ _ _ _ _ Hrs Hi) as (h & Hh & Eh). destruct (G1 h) as (x & g' & -> & Hx & _); [by eapply elem_of_list_lookup_2|]. injection Eh as <-. done.
    - intros x Hx. destruct (G2 x Hx) as (g & Hg & Hxg). destruct (G1 g Hg) as (y & g' & -> & Hy & Eg). apply elem_of_list_lookup in Hg as (i & Hi). destruct (Forall2_lookup_l _ _ _ _ _ Hrs Hi) as (r & Hr & E1). injection E1 as <-.
      exists y. split; [by eapply elem_of_list_lookup_2|]. rewrite Eg in Hxg. apply elem_of_list_filter in Hxg as [H _]. rewrite <- H. unfold same. by rewrite andb_comm.
    - clear -Hs Hne. induction Hs as [|r rs Hs IH Hf]; constructor; [|done]. eapply Forall_impl; [exact Hf|]. cbn. auto.
  Qed.

  (** * Tuples as rows *)
  Definition shape (sc : list (string * list string)) (t : tuple) : Prop := map (fun e => (fst e, map fst (snd e))) t = sc.
  Definition flat (t : tuple) : list V := r ← t; map snd (snd r).
  Definition sl (sc : list (string * list string)) : list string := s ← sc; map (fun c => ident_text (Some (fst s)) c) (snd s).
  Definition good_scope (sc : list (string * list string)) : Prop := Forall (fun s => identifier (fst s)) sc.
  Lemma zip_fst_snd {A B} (l : list (A * B)) : zip (map fst l) (map snd l) = l.
  Proof. induction l as [|[a b] l IH]; [done|]. cbn. by f_equal. Qed.
  Lemma sl_app a b : sl (a ++ b) = sl a ++ sl b.
  Proof. unfold sl. by rewrite bind_app. Qed.
  Lemma flat_app t u : flat (t ++ u) = flat t ++ flat u.
  Proof. unfold flat. by rewrite bind_app. Qed.
  Lemma shape_app a b t u : shape a t -> shape b u -> shape (a ++ b) (t ++ u).
  Proof. unfold shape. intros <- <-. by rewrite map_app. Qed.
  Lemma flat_length sc t : shape sc t -> length (flat t) = length (sl sc).
  Proof. unfold shape. intros <-. induction t as [|[a r] t IH]; [done|]. unfold flat, sl in *. cbn. rewrite !app_length, IH, !map_length. done. Qed.
  Lemma good_assoc sc f cs : good_scope sc -> assoc f sc = Some cs -> identifier f.
  Proof. intros H E%assoc_some_in. unfold good_scope in H. rewrite Forall_forall in H. exact (H _ E). Qed.
  Lemma flat_cell sc t i : good_scope sc -> shape sc t -> in_scope sc i -> exists v, value_at t i = Some v /\ cell (sl sc) (flat t) (ident_text (fst i) (snd i)) = Some v.
  Proof.
    unfold shape. intros Hg Hsh (f & cs & Ef & Hi & Ea & Hc). subst sc. destruct i as [if_ c]. cbn [fst snd] in *. subst if_. unfold value_at. cbn [fst snd].
    pose proof (good_assoc _ _ _ Hg Ea) as [_ Hf]. induction t as [|[a r] t IH]; [done|]. cbn [map assoc fst snd] in *. apply Forall_cons in Hg as [[_ H1] H2]. cbn [fst] in H1.
    change (flat ((a, r) :: t)) with (map snd r ++ flat t). change (sl ((a, map fst r) :: ?x)) with (map (fun c => ident_text (Some a) c) (map fst r) ++ sl x).
    destruct (string_dec a f) as [->|Hne].
    - injection Ea as <-. destruct (assoc_zip_some (map fst r) (map snd r) c) as (v & Hv); [by rewrite !map_length|done|]. rewrite zip_fst_snd in Hv. exists v. split; [done|].
      apply cell_app_l. rewrite cell_prefix; [by rewrite zip_fst_snd|done|by rewrite !map_length].
    - destruct (IH H2 Ea) as (v & Hv & Hcell). exists v. split; [done|]. rewrite cell_app_r; [done|by rewrite !map_length|].
      intros (d & E & _)%elem_of_list_fmap. cbn in E. apply dot_inj in E as [E _]; done.
  Qed.
  Lemma sl_in sc i : in_scope sc i -> ident_text (fst i) (snd i) ∈ sl sc.
  Proof.
    intros (f & cs & Ef & _ & Ea & Hc). apply assoc_some_in in Ea. unfold sl. apply elem_of_list_bind. exists (f, cs). split; [|done]. rewrite Ef. apply elem_of_list_fmap. by exists (snd i).
  Qed.
  Lemma sl_elem sc l : good_scope sc -> l ∈ sl sc -> exists p c, l = p +++ "." +++ c /\ id_chars p = true /\ p ∈ map fst sc.
  Proof.
    intros Hg ([p cs] & Hl & Hs)%elem_of_list_bind. apply elem_of_list_fmap in Hl as (c & -> & Hc). exists p, c. split; [done|]. unfold good_scope in Hg. rewrite Forall_forall in Hg.
    split; [by apply (Hg (p, cs))|]. apply elem_of_list_fmap. by exists (p, cs).
  Qed.
  Lemma sl_nodup sc : good_scope sc -> NoDup (map fst sc) -> Forall (fun s => NoDup (snd s)) sc -> NoDup (sl sc).
  Proof.
    induction sc as [|[p cs] sc IH]; intros Hg Hn Hc; [constructor|]. apply NoDup_cons in Hn as [H1 H2]. apply Forall_cons in Hc as [H3 H4]. apply Forall_cons in Hg as [[_ H5] H6]. cbn [fst snd] in *.
    change (sl ((p, cs) :: sc)) with (map (fun c => ident_text (Some p) c) cs ++ sl sc). apply NoDup_app. split; [|split; [|by apply IH]].
    - apply NoDup_fmap_2_strong; [|done]. intros c d _ _ E. by apply dot_inj in E as [_ ?].
    - intros l (c & -> & Hc)%elem_of_list_fmap Hl. apply sl_elem in Hl as (q & d & E & Hq & Hin); [|done]. cbn in E. apply dot_inj in E as [-> _]; done.
  Qed.
End rows.
