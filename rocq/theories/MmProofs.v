(** Proofs about reading Matrix Market files. *)
From stdpp Require Import base numbers sorting list list_numbers.
From Coq Require Import ZArith Lia.
From Verif Require Import CppBase Mem CSRModel CSRSpec CSRProofs CSRAppendProofs CSRView SparseSpec MmModel MmSpec.
Local Open Scope nat_scope.

Section Runl.
  Context {E S : Type} (body : E -> S -> outcome S).
  Fixpoint runl (es : list E) (s : S) : outcome S := match es with [] => Ok s | e :: es => let* s := body e s in runl es s end.
  Lemma obind_assoc {A B C} (m : outcome A) (k1 : A -> outcome B) (k2 : B -> outcome C) : obind (obind m k1) k2 = obind m (fun x => obind (k1 x) k2).
  Proof. by destruct m. Qed.
  Lemma obind_Ok_r {A} (m : outcome A) : obind m Ok = m.
  Proof. by destruct m. Qed.
  Lemma runl_app es1 es2 s : runl (es1 ++ es2) s = let* s := runl es1 s in runl es2 s.
  Proof. revert s. induction es1 as [|e es1 IH]; intros s; [done|]. cbn [app runl]. rewrite obind_assoc. destruct (body e s); [|done|done]. cbn [obind]. apply IH. Qed.
End Runl.

Lemma elem_concat {A} (x : A) ls : x ∈ concat ls <-> exists l, x ∈ l /\ l ∈ ls.
Proof.
  induction ls as [|l ls IH]; cbn [concat].
  - split; [by intros ?%elem_of_nil|]. intros (l & _ & Hl). by apply elem_of_nil in Hl.
  - rewrite elem_of_app, IH. split.
    + intros [Hx|(l' & Hx & Hl)]; [exists l; split; [done|by left]|exists l'; split; [done|by right]].
    + intros (l' & Hx & [->|Hl]%elem_of_cons); [by left|right; by exists l'].
Qed.
Lemma wrap_small z : (0 <= z < 2 ^ 64)%Z -> wrap z = z.
Proof. intros Hz. unfold wrap. by apply Z.mod_small. Qed.

Section Iter.
  Context {V : Type} `{Val V} (one : V) (neg : V -> V).
  Implicit Types f : mmfile (V := V).
  Notation nent := (nat * nat * V)%type (only parsing).
  Definition toZ (e : nent) : entry (V := V) := (Z.of_nat e.1.1, Z.of_nat e.1.2, e.2).
  Definition expand (s : mmsym) (e : nent) : list nent :=
    e :: match s with Symmetric => if decide (e.1.1 = e.1.2) then [] else [(e.1.2, e.1.1, e.2)] | Skew => [(e.1.2, e.1.1, neg e.2)] | _ => [] end.
  Definition nextrc f (r c : Z) : Z * Z := if decide (Z.of_nat (f_rows f) <= wrap (r + 1))%Z then progress (f_sym f) c else (wrap (r + 1), c).
  Lemma mm_step {S} f (body : entry -> S -> outcome S) l ls r c i j s : position f l r c = Ok (Z.of_nat i, Z.of_nat j) -> i < f_rows f -> j < f_cols f -> (f_sym f <> General -> f_rows f = f_cols f) -> (Z.of_nat (f_rows f) * Z.of_nat (f_cols f) < 2 ^ 64)%Z ->
    mm_loop one neg f body (l :: ls) r c s = let* s := runl body (toZ <$> expand (f_sym f) (i, j, value_of one f l)) s in mm_loop one neg f body ls (nextrc f (Z.of_nat i) (Z.of_nat j)).1 (nextrc f (Z.of_nat i) (Z.of_nat j)).2 s.
  Proof.
    intros Hp Hi Hj Hsq Hsz. cbn [mm_loop]. rewrite Hp. cbn [obind fst snd]. fold (nextrc f (Z.of_nat i) (Z.of_nat j)).
    assert (Hne : forall a b (v : V), a < f_rows f -> b < f_cols f -> ~ at_end (Z.of_nat a, Z.of_nat b, v)).
    { intros a b v Ha Hb [= E1 E2]. nia. }
    rewrite decide_False by (by apply Hne). fold (value_of one f l). unfold expand, mirrored. cbn [fst snd].
    destruct (f_sym f) eqn:Es; cbn [fmap list_fmap runl]; rewrite ?obind_assoc.
    - by destruct (body _ _).
    - specialize (Hsq ltac:(done)). destruct (decide (i = j)) as [->|Hij].
      + rewrite decide_True by done. cbn [fmap list_fmap runl]. by destruct (body _ _).
      + rewrite decide_False by lia. cbn beta iota. cbn [fmap list_fmap runl]. change (toZ (i, j, value_of one f l)) with (Z.of_nat i, Z.of_nat j, value_of one f l). destruct (body (Z.of_nat i, Z.of_nat j, value_of one f l) s) as [s1| |]; [|done|done]. cbn [obind]. rewrite decide_False by (apply Hne; lia). change (toZ (j, i, value_of one f l)) with (Z.of_nat j, Z.of_nat i, value_of one f l). by destruct (body _ _).
    - specialize (Hsq ltac:(done)). cbn beta iota. change (toZ (i, j, value_of one f l)) with (Z.of_nat i, Z.of_nat j, value_of one f l). destruct (body (Z.of_nat i, Z.of_nat j, value_of one f l) s) as [s1| |]; [|done|done]. cbn [obind]. rewrite decide_False by (apply Hne; lia). change (toZ (j, i, neg (value_of one f l))) with (Z.of_nat j, Z.of_nat i, neg (value_of one f l)). by destruct (body _ _).
    - by destruct (body _ _).
  Qed.

  (** The entries as listed. *)
  Definition base f : list nent :=
    match f_fmt f with
    | Coordinate => (fun l => (Z.to_nat (l_row l - 1), Z.to_nat (l_col l - 1), value_of one f l)) <$> f_lines f
    | Array => zip_with (fun p l => (p, value_of one f l)) (positions (f_sym f) (f_rows f) (f_cols f)) (f_lines f)
    end.
  Definition all f : list nent := concat (expand (f_sym f) <$> base f).

  (** ** The order of array files *)
  Definition nprogress (s : mmsym) (c : nat) : nat * nat := match s with Symmetric => (c + 1, c + 1) | Skew => (c + 2, c + 1) | _ => (0, c + 1) end.
  Definition nnext (s : mmsym) (n r c : nat) : nat * nat := if decide (n <= r + 1) then nprogress s c else (r + 1, c).
  Fixpoint orbit (s : mmsym) (n m : nat) (ps : list (nat * nat)) (r c : nat) : Prop :=
    match ps with [] => True | p :: ps => p = (r, c) /\ r < n /\ c < m /\ orbit s n m ps (nnext s n r c).1 (nnext s n r c).2 end.
  Lemma orbit_col s n m rest c : c < m -> forall k r, r + k = n -> 0 < k -> orbit s n m rest (nprogress s c).1 (nprogress s c).2 -> orbit s n m (((fun r => (r, c)) <$> seq r k) ++ rest) r c.
  Proof.
    intros Hc. induction k as [|k IH]; intros r Hr Hk Ho; [lia|]. cbn [seq fmap list_fmap app orbit]. split; [done|]. split; [lia|]. split; [done|]. unfold nnext. destruct (decide (n <= r + 1)).
    - replace k with 0 by lia. done.
    - cbn [fst snd]. replace (r + 1) with (S r) by lia. apply IH; [lia|lia|done].
  Qed.
  Lemma orbit_positions s n m : 0 < n -> s <> Hermitian -> (s <> General -> n = m) -> orbit s n m (positions s n m) (if decide (s = Skew) then 1 else 0) 0.
  Proof.
    intros Hn Hh Hsq. unfold positions.
    assert (Hgen : forall k c, c + k = m -> orbit s n m (concat (column s n <$> seq c k)) (match s with Symmetric => c | Skew => c + 1 | _ => 0 end) c).
    { induction k as [|k IH]; intros c Hc; [done|]. cbn [seq fmap list_fmap concat]. specialize (IH (S c) ltac:(lia)). unfold column at 1. destruct s.
      - apply orbit_col; [lia|lia|lia|]. cbn [nprogress fst snd]. by replace (c + 1) with (S c) by lia.
      - specialize (Hsq ltac:(done)). apply orbit_col; [lia|lia|lia|]. cbn [nprogress fst snd]. by replace (c + 1) with (S c) by lia.
      - specialize (Hsq ltac:(done)). destruct (decide (c + 1 = n)) as [E|E].
        + replace (n - (c + 1)) with 0 by lia. replace k with 0 by lia. done.
        + apply orbit_col; [lia|lia|lia|]. cbn [nprogress fst snd]. replace (c + 2) with (S c + 1) by lia. by replace (c + 1) with (S c) by lia.
      - done. }
    specialize (Hgen m 0 ltac:(lia)). destruct s; done.
  Qed.

  Lemma loop_array {S} f (body : entry -> S -> outcome S) ls : f_fmt f = Array -> (f_sym f <> General -> f_rows f = f_cols f) -> f_sym f <> Hermitian -> (Z.of_nat (f_rows f) * Z.of_nat (f_cols f) < 2 ^ 64)%Z -> 0 < f_rows f -> 0 < f_cols f -> forall ps r c s, length ps = length ls -> orbit (f_sym f) (f_rows f) (f_cols f) ps r c ->
    mm_loop one neg f body ls (Z.of_nat r) (Z.of_nat c) s = runl body (toZ <$> concat (expand (f_sym f) <$> zip_with (fun p l => (p, value_of one f l)) ps ls)) s.
  Proof.
    intros Hf Hsq Hh Hsz H0 H0c. induction ls as [|l ls IH]; intros ps r c s Hl Ho; [by destruct ps|]. destruct ps as [|p ps]; [done|]. destruct Ho as (-> & Hr & Hc & Ho).
    rewrite (mm_step f body l ls (Z.of_nat r) (Z.of_nat c) r c s); [|by unfold position; rewrite Hf|done|done|done|done]. cbn [zip_with fmap list_fmap concat]. rewrite fmap_app, runl_app.
    match goal with |- obind ?m _ = _ => destruct m as [s1| |]; [|done|done] end. cbn [obind]. rewrite <- (IH ps (nnext (f_sym f) (f_rows f) r c).1 (nnext (f_sym f) (f_rows f) r c).2); [|by injection Hl|done].
    assert (Hb : (Z.of_nat r + 1 < 2 ^ 64)%Z).
    { assert (Z.of_nat (f_rows f) < 2 ^ 64)%Z by nia. destruct (decide (Z.of_nat r + 1 < 2 ^ 64)%Z); [done|]. lia. }
    assert (Hbc : (Z.of_nat c + 1 < 2 ^ 64)%Z) by nia.
    assert (E : nextrc f (Z.of_nat r) (Z.of_nat c) = (Z.of_nat (nnext (f_sym f) (f_rows f) r c).1, Z.of_nat (nnext (f_sym f) (f_rows f) r c).2) \/ ls = []).
    { unfold nextrc, nnext. rewrite (wrap_small (Z.of_nat r + 1)) by lia. destruct (decide (f_rows f <= r + 1)) as [Hle|Hle].
      - rewrite decide_True by lia. unfold progress, nprogress. rewrite (wrap_small (Z.of_nat c + 1)) by lia. destruct (f_sym f) eqn:Es; cbn [fst snd]; try (left; f_equal; lia). destruct (decide (Z.of_nat c + 2 < 2 ^ 64)%Z); [left; rewrite wrap_small by lia; f_equal; lia|]. right. specialize (Hsq ltac:(done)). destruct ps as [|p ps]; [by destruct ls|]. exfalso. destruct Ho as (-> & Hr1 & Hc1 & _). unfold nnext in Hr1, Hc1. rewrite decide_True in Hr1, Hc1 by lia. cbn in Hr1, Hc1. nia.
      - rewrite decide_False by lia. left. cbn [fst snd]. f_equal; lia. }
    destruct E as [->| ->]; [done|]. done.
  Qed.
  Lemma stoi_ok z : (1 <= z < 2 ^ 31)%Z -> stoi_m1 z = Ok (Z.of_nat (Z.to_nat (z - 1))).
  Proof. intros Hz. unfold stoi_m1. rewrite decide_True by lia. rewrite decide_False by lia. rewrite wrap_small by lia. f_equal. lia. Qed.
  Lemma loop_coord {S} f (body : entry -> S -> outcome S) ls : f_fmt f = Coordinate -> (f_sym f <> General -> f_rows f = f_cols f) -> (Z.of_nat (f_rows f) * Z.of_nat (f_cols f) < 2 ^ 64)%Z ->
    Forall (fun l => (1 <= l_row l <= Z.of_nat (f_rows f) /\ 1 <= l_col l <= Z.of_nat (f_cols f) /\ l_row l < 2 ^ 31 /\ l_col l < 2 ^ 31)%Z) ls -> forall r c s,
    mm_loop one neg f body ls r c s = runl body (toZ <$> concat (expand (f_sym f) <$> ((fun l => (Z.to_nat (l_row l - 1), Z.to_nat (l_col l - 1), value_of one f l)) <$> ls))) s.
  Proof.
    intros Hf Hsq Hsz. induction 1 as [|l ls (H1 & H2 & H3 & H4) Hls IH]; intros r c s; [done|].
    rewrite (mm_step f body l ls r c (Z.to_nat (l_row l - 1)) (Z.to_nat (l_col l - 1)) s); [|unfold position; rewrite Hf, !stoi_ok by lia; done|lia|lia|done|done]. cbn [fmap list_fmap concat]. rewrite fmap_app, runl_app.
    match goal with |- obind ?m _ = _ => destruct m as [s1| |]; [|done|done] end. cbn [obind]. by rewrite IH.
  Qed.
  (** The loop visits the entries that the file gives, in order. *)
  Lemma for_each_all {S} f (body : entry -> S -> outcome S) s : well_formed f -> for_each one neg f body s = runl body (toZ <$> all f) s.
  Proof.
    intros (Hsz & H0 & H0c & Hh & Hsq & Hm). unfold for_each, all, base. destruct (f_fmt f) eqn:Ef.
    - destruct Hm as (_ & _ & Hr & _). exact (loop_coord f body (f_lines f) Ef Hsq Hsz Hr _ _ s).
    - pose proof (orbit_positions (f_sym f) (f_rows f) (f_cols f) H0 Hh Hsq) as Ho. pose proof (loop_array f body (f_lines f) Ef Hsq Hh Hsz H0 H0c _ _ _ s (eq_sym Hm) Ho) as <-. unfold start. by destruct (decide (f_sym f = Skew)).
  Qed.

  (** ** Facts about the entries *)
  Lemma positions_elem s n m i j : (i, j) ∈ positions s n m <-> j < m /\ i < n /\ match s with Symmetric => j <= i | Skew => j < i | _ => True end.
  Proof.
    unfold positions, column. rewrite elem_concat. split.
    - intros (l & Hl & Hi). apply elem_of_list_fmap in Hi as (c & -> & Hc). apply elem_of_list_fmap in Hl as (r & [= -> ->] & Hr). apply elem_of_seq in Hc. destruct s; apply elem_of_seq in Hr; lia.
    - intros (Hj & Hi & Hs). eexists. split; [|apply elem_of_list_fmap; exists j; split; [reflexivity|apply elem_of_seq; lia]]. apply elem_of_list_fmap. exists i. split; [done|]. destruct s; apply elem_of_seq; lia.
  Qed.
  Lemma positions_nodup s n m : NoDup (positions s n m).
  Proof.
    unfold positions. assert (Hg : forall k c, NoDup (concat (column s n <$> seq c k)) /\ forall p, p ∈ concat (column s n <$> seq c k) -> c <= p.2).
    { induction k as [|k IH]; intros c; cbn [seq fmap list_fmap concat]; [split; [constructor|by intros p ?%elem_of_nil]|]. destruct (IH (S c)) as [Hn Hp].
      assert (Hcol : forall p, p ∈ column s n c -> p.2 = c) by (intros p; unfold column; intros (r & -> & _)%elem_of_list_fmap; done).
      split.
      - apply NoDup_app. split; [|split; [|done]].
        + unfold column. apply NoDup_fmap; [by intros r r' [= ->]|]. destruct s; apply NoDup_seq.
        + intros p Hpc Hpr. apply Hcol in Hpc. apply Hp in Hpr. lia.
      - intros p [Hp1|Hp1]%elem_of_app; [apply Hcol in Hp1; lia|apply Hp in Hp1; lia]. }
    apply Hg.
  Qed.
  Definition tri (s : mmsym) (e : nent) : Prop := match s with Symmetric => e.1.2 <= e.1.1 | Skew => e.1.2 < e.1.1 | _ => True end.
  Lemma zip_with_fst {A B C} (g : B -> C) (l1 : list A) (l2 : list B) : length l1 = length l2 -> (zip_with (fun p l => (p, g l)) l1 l2).*1 = l1.
  Proof. revert l2. induction l1 as [|x l1 IH]; intros [|y l2] Hl; try done. cbn [zip_with fmap list_fmap fst]. f_equal. apply IH. by injection Hl. Qed.
  Lemma base_facts f : well_formed f -> NoDup (base f).*1 /\ Forall (fun e => e.1.1 < f_rows f /\ e.1.2 < f_cols f /\ tri (f_sym f) e) (base f).
  Proof.
    intros (Hsz & H0 & _ & Hh & Hsq & Hm). unfold base. destruct (f_fmt f) eqn:Ef.
    - destruct Hm as (_ & Hnd & Hr & Ht1 & Ht2). split.
      + rewrite <- list_fmap_compose. clear Ht1 Ht2. revert Hnd Hr. generalize (f_lines f). intros ls0 Hnd Hr. revert Hnd. induction Hr as [|l ls Hl Hls IH]; intros Hnd; [constructor|]. cbn [fmap list_fmap] in Hnd |- *. apply NoDup_cons in Hnd as [Hn1 Hn2]. constructor; [|by apply IH]. intros (l' & E & Hl')%elem_of_list_fmap. cbn in E. injection E as E1 E2. apply Hn1. apply elem_of_list_fmap. exists l'. split; [|done]. rewrite Forall_forall in Hls. specialize (Hls l' Hl'). f_equal; lia.
      + apply Forall_fmap. apply Forall_forall. intros l Hl. rewrite Forall_forall in Hr. specialize (Hr l Hl). cbn. split; [lia|]. split; [lia|]. unfold tri. cbn. destruct (f_sym f); try done; [specialize (Ht1 eq_refl); rewrite Forall_forall in Ht1; specialize (Ht1 l Hl); lia|specialize (Ht2 eq_refl); rewrite Forall_forall in Ht2; specialize (Ht2 l Hl); lia].
    - split; [rewrite zip_with_fst by done; apply positions_nodup|]. apply Forall_forall. intros [[i j] v] Hin. assert (Hp : (i, j) ∈ (zip_with (fun p l => (p, value_of one f l)) (positions (f_sym f) (f_rows f) (f_cols f)) (f_lines f)).*1) by (apply elem_of_list_fmap; by exists (i, j, v)). rewrite zip_with_fst in Hp by done. apply positions_elem in Hp as (Hj & Hi & Ht). cbn. split; [done|]. split; [done|]. unfold tri. by destruct (f_sym f).
  Qed.
  Lemma base_listed f i j v : well_formed f -> listed one f i j v <-> (i, j, v) ∈ base f.
  Proof.
    intros (Hsz & H0 & _ & Hh & Hsq & Hm). unfold base, listed. destruct (f_fmt f) eqn:Ef.
    - destruct Hm as (_ & _ & Hr & _). rewrite elem_of_list_fmap. split.
      + intros (l & Hl & E1 & E2 & ->). exists l. split; [|done]. repeat f_equal; lia.
      + intros (l & [= -> -> ->] & Hl). exists l. rewrite Forall_forall in Hr. specialize (Hr l Hl). split; [done|]. split; [lia|]. split; [lia|done].
    - rewrite elem_of_list_lookup. split.
      + intros (k & l & Hp & Hl & ->). exists k. rewrite lookup_zip_with, Hp, Hl. done.
      + intros (k & Hk). rewrite lookup_zip_with in Hk. destruct (positions _ _ _ !! k) as [p|] eqn:Hp; [|done]. destruct (f_lines f !! k) as [l|] eqn:Hl; [|done]. cbn in Hk. injection Hk as -> <-. by exists k, l.
  Qed.
  Lemma all_elem f i j v : (i, j, v) ∈ all f <-> exists e, e ∈ base f /\ (i, j, v) ∈ expand (f_sym f) e.
  Proof.
    unfold all. rewrite elem_concat. split.
    - intros (l & Hl & (e & -> & He)%elem_of_list_fmap). by exists e.
    - intros (e & He & Hx). eexists. split; [exact Hx|]. apply elem_of_list_fmap. by exists e.
  Qed.
  Lemma all_given f i j v : well_formed f -> given one neg f i j v <-> (i, j, v) ∈ all f.
  Proof.
    intros Hw. pose proof (base_facts f Hw) as [Hnd Hf]. rewrite all_elem. unfold given. rewrite !base_listed by done. unfold expand. split.
    - intros [Hb|[[Hs Hb]|[Hs (w & Hb & ->)]]].
      + exists (i, j, v). split; [done|by left].
      + destruct (decide (i = j)) as [->|Hij]; [exists (j, j, v); split; [done|by left]|]. exists (j, i, v). split; [done|]. rewrite Hs. rewrite decide_False by (cbn; done). right. by left.
      + apply base_listed in Hb; [|done]. exists (j, i, w). split; [done|]. rewrite Hs. right. by left.
    - intros ([[a b] w] & He & Hx). cbn [fst snd] in Hx. apply elem_of_cons in Hx as [[= -> -> ->]|Hx]; [by left|]. destruct (f_sym f) eqn:Es.
      + by apply elem_of_nil in Hx.
      + destruct (decide (a = b)); [by apply elem_of_nil in Hx|]. apply elem_of_list_singleton in Hx as [= -> -> ->]. right. left. split; [done|]. done.
      + apply elem_of_list_singleton in Hx as [= -> -> ->]. right. right. split; [done|]. exists w. split; [by apply base_listed|done].
      + by apply elem_of_nil in Hx.
  Qed.
  Lemma expand_pos s e p : tri s e -> p ∈ (expand s e).*1 -> p = e.1 \/ ((s = Symmetric \/ s = Skew) /\ p = (e.1.2, e.1.1)).
  Proof.
    intros Ht. unfold expand. rewrite fmap_cons. intros [->|Hp]%elem_of_cons; [by left|]. destruct s; cbn [fmap list_fmap] in Hp; [by apply elem_of_nil in Hp| | |by apply elem_of_nil in Hp].
    - destruct (decide (e.1.1 = e.1.2)); cbn [fmap list_fmap] in Hp; [by apply elem_of_nil in Hp|]. apply elem_of_list_singleton in Hp as ->. right. eauto.
    - apply elem_of_list_singleton in Hp as ->. right. eauto.
  Qed.
  Lemma all_facts f : well_formed f -> NoDup (all f).*1 /\ Forall (fun e => e.1.1 < f_rows f /\ e.1.2 < f_cols f) (all f).
  Proof.
    intros Hw. pose proof (base_facts f Hw) as [Hnd Hf]. destruct Hw as (_ & _ & _ & _ & Hsq & _). unfold all. split.
    - induction Hf as [|e es (H1 & H2 & Ht) Hes IH]; [constructor|]. rewrite fmap_cons in Hnd. apply NoDup_cons in Hnd as [Hn1 Hn2]. cbn [fmap list_fmap concat]. rewrite fmap_app. apply NoDup_app. split; [|split; [|by apply IH]].
      + unfold expand. destruct e as [[a b] v]. unfold tri in Ht. cbn in *. destruct (f_sym f); cbn [fmap list_fmap fst]; try (apply NoDup_singleton).
        * destruct (decide (a = b)); [apply NoDup_singleton|]. apply NoDup_cons. split; [|apply NoDup_singleton]. intros [= E1 E2]%elem_of_list_singleton. lia.
        * apply NoDup_cons. split; [|apply NoDup_singleton]. intros [= E1 E2]%elem_of_list_singleton. lia.
      + intros p Hp Hq. apply elem_of_list_fmap in Hq as (e' & -> & He'). apply elem_concat in He' as (l & Hl & (e2 & -> & He2)%elem_of_list_fmap). rewrite Forall_forall in Hes. destruct (Hes e2 He2) as (_ & _ & Ht2). apply expand_pos in Hp; [|done]. assert (Hq : e'.1 ∈ (expand (f_sym f) e2).*1) by (apply elem_of_list_fmap; by exists e'). apply expand_pos in Hq; [|done].
        assert (Hne : e.1 <> e2.1). { intros E. apply Hn1. rewrite E. apply elem_of_list_fmap. by exists e2. } destruct e as [[a b] v], e2 as [[a2 b2] v2], e' as [[a3 b3] v3]. cbn [fst snd] in *. unfold tri in *. cbn [fst snd] in *.
        destruct Hp as [[= -> ->]|[Hs [= -> ->]]], Hq as [[= -> ->]|[Hs2 [= -> ->]]]; try done; destruct (f_sym f); try (by destruct Hs); try (by destruct Hs2); apply Hne; f_equal; lia.
    - apply Forall_forall. intros e He. apply elem_concat in He as (l & Hl & (e2 & -> & He2)%elem_of_list_fmap). rewrite Forall_forall in Hf. destruct (Hf e2 He2) as (H1 & H2 & Ht). assert (Hp : e.1 ∈ (expand (f_sym f) e2).*1) by (apply elem_of_list_fmap; by exists e). apply expand_pos in Hp; [|done]. destruct Hp as [->|[Hs ->]]; [done|]. cbn. assert (f_rows f = f_cols f) by (apply Hsq; destruct Hs as [->| ->]; done). lia.
  Qed.
  Lemma all_fun f i j v w : well_formed f -> (i, j, v) ∈ all f -> (i, j, w) ∈ all f -> v = w.
  Proof.
    intros Hw H1 H2. pose proof (all_facts f Hw) as [Hnd _]. apply elem_of_list_lookup in H1 as [k1 H1], H2 as [k2 H2]. assert (k1 = k2). { eapply NoDup_lookup; [exact Hnd| |]; rewrite list_lookup_fmap. - rewrite H1. done. - rewrite H2. done. } subst. rewrite H1 in H2. by injection H2.
  Qed.
  Lemma denotes_unique f i j v w : well_formed f -> denotes one neg f i j v -> denotes one neg f i j w -> v = w.
  Proof.
    intros Hw [H1|[H1 ->]] [H2|[H2 ->]]; try done.
    - apply all_given in H1, H2; try done. by eapply all_fun.
    - by apply H2 in H1.
    - by apply H1 in H2.
  Qed.
  (** The arrays are left uninitialised only if all cells are given. *)
  Lemma grid n m : exists g : list (nat * nat), NoDup g /\ length g = n * m /\ forall i j, (i, j) ∈ g <-> i < n /\ j < m.
  Proof.
    exists (positions General n m). split; [apply positions_nodup|]. split.
    - unfold positions, column. rewrite <- (seq_length m 0) at 2. induction (seq 0 m) as [|c l IH]; [cbn; lia|]. cbn [fmap list_fmap concat]. rewrite app_length, IH, fmap_length, seq_length. cbn. lia.
    - intros i j. rewrite positions_elem. naive_solver.
  Qed.
  Lemma full n m (ps : list (nat * nat)) : NoDup ps -> Forall (fun p => p.1 < n /\ p.2 < m) ps -> n * m <= length ps -> forall i j, i < n -> j < m -> (i, j) ∈ ps.
  Proof.
    intros Hnd Hf Hl i j Hi Hj. destruct (grid n m) as (g & Hg & Hlg & Hgin). apply elem_of_list_In. apply (NoDup_length_incl (l := ps) (l' := g)).
    - by apply NoDup_ListNoDup.
    - lia.
    - intros p Hp. apply elem_of_list_In in Hp. apply elem_of_list_In. destruct p as [a b]. apply Hgin. rewrite Forall_forall in Hf. by apply (Hf (a, b)).
    - apply elem_of_list_In. by apply Hgin.
  Qed.
  Lemma all_len f : length (base f) * (if decide (f_sym f = Skew) then 2 else 1) <= length (all f).
  Proof.
    unfold all. induction (base f) as [|e es IH]; [cbn; lia|]. cbn [fmap list_fmap concat length]. rewrite app_length. unfold expand at 1. destruct (decide (f_sym f = Skew)) as [->|]; cbn [length]; lia.
  Qed.
  Lemma covered f i j : well_formed f -> entry_count f = wrap (Z.of_nat (f_cols f) * Z.of_nat (f_rows f)) -> i < f_rows f -> j < f_cols f -> exists v, (i, j, v) ∈ all f.
  Proof.
    intros Hw Hc Hi Hj. pose proof (all_facts f Hw) as [Hnd Hr]. assert (Hin : (i, j) ∈ (all f).*1 -> exists v, (i, j, v) ∈ all f). { intros ([[a b] v] & [= -> ->] & He)%elem_of_list_fmap. eauto. } apply Hin. clear Hin.
    pose proof (all_len f) as Hlen. pose proof (all_elem f) as Hall. assert (Hw' := Hw). destruct Hw' as (Hsz & H0 & H0c & Hh & Hsq & Hm). unfold entry_count in Hc. rewrite (wrap_small (Z.of_nat (f_cols f) * _)) in Hc by lia. destruct (f_fmt f) eqn:Ef.
    - destruct Hm as (Hnnz & _). assert (Hlb : length (base f) = f_nnz f) by (unfold base; rewrite Ef, fmap_length; done). apply (full (f_rows f) (f_cols f)); [done|by apply Forall_fmap| |done|done]. rewrite fmap_length. rewrite Hlb in Hlen.
      assert (Hw2 : (Z.of_nat (f_nnz f) * (if decide (f_sym f = Skew) then 2 else 1) < 2 ^ 64)%Z).
      { assert (Hle : length (all f) <= f_rows f * f_cols f).
        { destruct (grid (f_rows f) (f_cols f)) as (g & Hg & Hlg & Hgin). rewrite <- Hlg. transitivity (length (all f).*1); [by rewrite fmap_length|]. apply submseteq_length. apply NoDup_submseteq; [done|]. intros [a b] Hp. apply Hgin. apply elem_of_list_fmap in Hp as ([[a' b'] v] & [= -> ->] & He). rewrite Forall_forall in Hr. by apply (Hr _ He). }
        revert Hlen. destruct (decide (f_sym f = Skew)); lia. }
      rewrite wrap_small in Hc by (destruct (decide (f_sym f = Skew)); lia). revert Hlen Hc. destruct (decide (f_sym f = Skew)); intros Hlen Hc; clear -Hlen Hc; nia.
    - assert (Hpos : forall a b, (a, b) ∈ positions (f_sym f) (f_rows f) (f_cols f) -> exists v, (a, b, v) ∈ base f).
      { intros a b [k Hk]%elem_of_list_lookup. destruct (lookup_lt_is_Some_2 (f_lines f) k) as [l El]; [rewrite Hm; by eapply lookup_lt_Some|]. eexists. apply (base_listed f a b (value_of one f l) Hw). unfold listed. rewrite Ef. by exists k, l. }
      assert (Hgo : (exists v, (i, j, v) ∈ all f) -> (i, j) ∈ (all f).*1). { intros [v Hv]. apply elem_of_list_fmap. by exists (i, j, v). } apply Hgo. destruct (f_sym f) eqn:Es.
      + destruct (Hpos i j) as [v Hv]; [by apply positions_elem|]. exists v. apply all_elem. exists (i, j, v). split; [done|]. by left.
      + specialize (Hsq ltac:(done)). destruct (decide (j <= i)) as [Hji|Hji].
        * destruct (Hpos i j) as [v Hv]; [by apply positions_elem|]. exists v. apply all_elem. exists (i, j, v). split; [done|]. by left.
        * destruct (Hpos j i) as [v Hv]; [apply positions_elem; lia|]. exists v. apply all_elem. exists (j, i, v). split; [done|]. rewrite Es. unfold expand. rewrite decide_False by (cbn; lia). right. by left.
      + exfalso. specialize (Hsq ltac:(done)). rewrite decide_True in Hc by done. rewrite (wrap_small (Z.of_nat (f_rows f) * _)) in Hc by lia. rewrite wrap_small in Hc by nia. lia.
      + done.
  Qed.
End Iter.
