(** Proofs about the signature and body of pipelines. *)
From stdpp Require Import base numbers list list_numbers.
From Coq Require Import Lia.
From Verif Require Import PipeSigModel PipeSigSpec.

Section sem.
  Context {V C : Type} (f : nat -> list V -> V) (part : split -> V -> C -> V) (combine : comb -> nat * nat -> list V -> V).
  Local Notation run := (run f part).
  Local Notation exec := (exec f).

  (** * Executing a body *)
  Lemma mapM_ext_in {X Y} (g h : X -> option Y) l : (forall x, x ∈ l -> g x = h x) -> mapM g l = mapM h l.
  Proof. induction l as [|x l IH]; intros H; [done|]. cbn. rewrite H by left. by rewrite IH by (intros; apply H; by right). Qed.
  Lemma mapM_fmap_eq {X Y Z} (g : Y -> option Z) (h : X -> Y) l : mapM g (h <$> l) = mapM (g ∘ h) l.
  Proof. induction l as [|x l IH]; [done|]. cbn. by rewrite IH. Qed.
  Lemma mapM_app_some {X Y} (g : X -> option Y) l k a b : mapM g l = Some a -> mapM g k = Some b -> mapM g (l ++ k) = Some (a ++ b).
  Proof.
    revert a. induction l as [|x l IH]; intros a; cbn; [by intros [= <-]|]. destruct (g x) as [y|]; [|done]. cbn. destruct (mapM g l) as [ys|] eqn:E; [|done]. cbn. intros [= <-] Hk. by rewrite (IH ys) by done.
  Qed.

  (** the body with other arguments and more values *)
  Lemma exec_sim (h : opnd -> opnd) (a a' : nat -> option V) : (forall i, exists j, h (Arg i) = Arg j) -> (forall v, h (Val v) = Val v) ->
    forall ops l l' m, (forall o x, o ∈ ops -> x ∈ b_args o -> forall i v, x = Arg i -> a i = Some v -> get a' (fun _ => None) (h x) = Some v) -> (forall x v, l x = Some v -> l' x = Some v) -> exec a l ops = Some m ->
    exists m', exec a' l' ((fun o => mkB (b_id o) (h <$> b_args o)) <$> ops) = Some m' /\ forall x v, m x = Some v -> m' x = Some v.
  Proof.
    intros HA HV ops. induction ops as [|o ops IH]; intros l l' m Ha Hl E; cbn in *; [injection E as <-; by exists l'|].
    destruct (mapM (get a l) (b_args o)) as [vs|] eqn:Ev; [|done].
    assert (mapM (get a' l') (h <$> b_args o) = Some vs) as ->.
    { rewrite mapM_fmap_eq. assert (forall x, x ∈ b_args o -> forall v, get a l x = Some v -> get a' l' (h x) = Some v) as Hg.
      { intros [i|w] Hx v Hv; [|rewrite HV; by apply Hl]. destruct (HA i) as (j & Ej). pose proof (Ha o (Arg i) ltac:(left) Hx i v eq_refl Hv) as H. rewrite Ej in *. done. }
      clear - Ev Hg. revert vs Ev. induction (b_args o) as [|x xs IH]; intros vs; cbn; [done|]. destruct (get a l x) as [v|] eqn:E1; [|done]. cbn. destruct (mapM (get a l) xs) as [ws|] eqn:E2; [|done]. cbn. intros [= <-]. cbn. rewrite (Hg x ltac:(left) v E1). cbn. rewrite (IH ltac:(intros; apply Hg; [by right|done]) ws eq_refl). done. }
    apply (IH (define l (b_id o) (f (b_id o) vs))); [intros; by eapply Ha; [by right|..]| |done].
    intros x v. unfold define. destruct (decide (x = b_id o)); [done|]. apply Hl.
  Qed.
  Lemma exec_id (a : nat -> option V) ops l l' m : (forall x v, l x = Some v -> l' x = Some v) -> exec a l ops = Some m ->
    exists m', exec a l' ops = Some m' /\ forall x v, m x = Some v -> m' x = Some v.
  Proof.
    intros Hl E. destruct (exec_sim id a a ltac:(intros i; by exists i) ltac:(done) ops l l' m) as (m' & E' & Hm); [|done|done|].
    - intros o x Ho Hx i v -> Hv. done.
    - exists m'. split; [|done]. rewrite <- E'. f_equal. symmetry. rewrite <- (list_fmap_id ops) at 2. apply list_fmap_ext. intros _ [? ?] _. cbn. by rewrite list_fmap_id.
  Qed.
  Lemma exec_frame (a : nat -> option V) ops : forall l m x, exec a l ops = Some m -> x ∉ b_id <$> ops -> m x = l x.
  Proof.
    induction ops as [|o ops IH]; intros l m x; cbn; [by intros [= <-]|]. destruct (mapM _ _); [|done]. intros E Hx. apply not_elem_of_cons in Hx as [H1 H2]. rewrite (IH _ _ _ E H2). unfold define. by rewrite decide_False by done.
  Qed.
  Lemma exec_app (a : nat -> option V) ops1 ops2 l : exec a l (ops1 ++ ops2) = match exec a l ops1 with Some m => exec a m ops2 | None => None end.
  Proof. revert l. induction ops1 as [|o ops1 IH]; intros l; cbn; [done|]. by destruct (mapM _ _). Qed.
  Lemma get_sim (h : opnd -> opnd) (a a' l l' : nat -> option V) (r : list opnd) vs : (forall i, exists j, h (Arg i) = Arg j) -> (forall v, h (Val v) = Val v) ->
    (forall x i v, x ∈ r -> x = Arg i -> a i = Some v -> get a' (fun _ => None) (h x) = Some v) -> (forall x v, Val x ∈ r -> l x = Some v -> l' x = Some v) ->
    mapM (get a l) r = Some vs -> mapM (get a' l') (h <$> r) = Some vs.
  Proof.
    intros HA HV Ha Hl. revert vs. induction r as [|x r IH]; intros vs; cbn; [done|]. destruct (get a l x) as [v|] eqn:E1; [|done]. cbn. destruct (mapM (get a l) r) as [ws|] eqn:E2; [|done]. cbn. intros [= <-].
    assert (get a' l' (h x) = Some v) as ->. { destruct x as [i|w]; [|rewrite HV; apply Hl; [left|done]]. destruct (HA i) as (j & Ej). pose proof (Ha (Arg i) i v ltac:(left) eq_refl E1) as H. rewrite Ej in *. done. }
    cbn. rewrite (IH ltac:(intros; by eapply Ha; [right|..]) ltac:(intros; apply Hl; [by right|done]) ws eq_refl). done.
  Qed.
End sem.

(** * Renumbering arguments *)
Definition shift (d : nat) (x : opnd) : opnd := match x with Arg i => Arg (d + i) | Val v => Val v end.
Lemma renum_shift d : forall l s k, l ≫= arg_of = seq s k -> renum (d + s) l = (d + s + k, shift d <$> l).
Proof.
  induction l as [|[i|v] l IH]; intros s k E; cbn in E.
  - destruct k; [|done]. cbn. by rewrite Nat.add_0_r.
  - destruct k as [|k]; [done|]. cbn in E. injection E as -> E. cbn [renum]. replace (S (d + s)) with (d + S s) by lia. rewrite (IH (S s) k E). cbn. apply pair_equal_spec. split; [lia|done].
  - cbn [renum]. rewrite (IH s k E). done.
Qed.
Lemma seq_split l1 l2 s k : l1 ++ l2 = seq s k -> exists k1 k2, k = k1 + k2 /\ l1 = seq s k1 /\ l2 = seq (s + k1) k2.
Proof.
  revert s k. induction l1 as [|x l1 IH]; intros s k E; [exists 0, k; cbn in *; by rewrite Nat.add_0_r|]. destruct k as [|k]; [done|]. cbn in E. injection E as -> E. destruct (IH _ _ E) as (k1 & k2 & -> & -> & ->). exists (S k1), k2. cbn. split; [done|]. split; [done|]. f_equal. lia.
Qed.
Definition shift_op (d : nat) (o : bop) : bop := mkB (b_id o) (shift d <$> b_args o).
Lemma move_shift d : forall b s k, (b ≫= fun o => b_args o ≫= arg_of) = seq s k -> move (d + s) b = (d + s + k, shift_op d <$> b).
Proof.
  induction b as [|o b IH]; intros s k E; cbn [mbind list_bind] in E.
  - destruct k; [|done]. cbn. by rewrite Nat.add_0_r.
  - apply seq_split in E as (k1 & k2 & -> & E1 & E2). cbn [move]. rewrite (renum_shift d _ _ _ E1). rewrite <- Nat.add_assoc. rewrite (IH _ _ E2). cbn. apply pair_equal_spec. split; [lia|done].
Qed.
Lemma move_all_shift d p : wired p -> move_all d p = (d + length (s_in p), (shift_op d <$> s_body p, shift d <$> s_ret p)).
Proof.
  unfold wired, arg_uses. intros E. apply seq_split in E as (k1 & k2 & E & E1 & E2). unfold move_all. pose proof (move_shift d (s_body p) 0 k1 E1) as H. rewrite Nat.add_0_r in H. rewrite H. pose proof (renum_shift d (s_ret p) k1 k2 E2) as H2. rewrite H2. cbn. apply pair_equal_spec. split; [lia|done].
Qed.
Lemma shift0 x : shift 0 x = x.
Proof. by destruct x. Qed.
Lemma merge_wired_eq p q : wired p -> wired q -> merge p q =
  mkP (s_in p ++ s_in q) (s_body p ++ (shift_op (length (s_in p)) <$> s_body q)) (s_ret p ++ (shift (length (s_in p)) <$> s_ret q)) (s_comb p ++ s_comb q) (s_size p ++ s_size q).
Proof.
  intros Hp Hq. unfold merge. rewrite (move_all_shift 0 p Hp), (move_all_shift _ q Hq). cbn [fst snd Nat.add]. f_equal.
  - f_equal. rewrite <- (list_fmap_id (s_body p)) at 2. apply list_fmap_ext. intros _ [? l] _. unfold shift_op. cbn. f_equal. rewrite <- (list_fmap_id l) at 2. apply list_fmap_ext. intros; apply shift0.
  - f_equal. rewrite <- (list_fmap_id (s_ret p)) at 2. apply list_fmap_ext. intros; apply shift0.
Qed.
Lemma arg_shift d l : (shift d <$> l) ≫= arg_of = (fun i => d + i) <$> (l ≫= arg_of).
Proof. induction l as [|[i|v] l IH]; cbn in *; [done|by rewrite IH|done]. Qed.
Lemma seq_shift_add d s k : (fun i => d + i) <$> seq s k = seq (d + s) k.
Proof. revert s. induction k as [|k IH]; intros s; cbn; [done|]. f_equal. rewrite IH. f_equal. lia. Qed.
Lemma bind_app {X Y} (g : X -> list Y) l k : (l ++ k) ≫= g = (l ≫= g) ++ (k ≫= g).
Proof. induction l as [|x l IH]; cbn; [done|]. by rewrite IH, app_assoc. Qed.
Definition returns_values (p : psig) : Prop := s_ret p ≫= arg_of = [].
Lemma body_shift d b : ((shift_op d <$> b) ≫= fun o => b_args o ≫= arg_of) = (fun i => d + i) <$> (b ≫= fun o => b_args o ≫= arg_of).
Proof. induction b as [|o b IH]; cbn [fmap list_fmap mbind list_bind]; [done|]. cbn [shift_op b_args]. rewrite fmap_app, IH. f_equal. apply arg_shift. Qed.
Lemma merge_wired p q : wired p -> wired q -> returns_values p -> returns_values q -> wired (merge p q) /\ returns_values (merge p q).
Proof.
  intros Hp Hq Rp Rq. rewrite (merge_wired_eq p q Hp Hq). unfold wired, returns_values, arg_uses in *. cbn [s_body s_ret s_in]. rewrite Rp in Hp. rewrite Rq in Hq. rewrite app_nil_r in Hp, Hq.
  assert ((s_ret p ++ (shift (length (s_in p)) <$> s_ret q)) ≫= arg_of = []) as E by (rewrite bind_app, Rp, arg_shift, Rq; done). split; [|done].
  rewrite E, app_nil_r, bind_app, body_shift, Hp, Hq, app_length, seq_app. f_equal. rewrite seq_shift_add. f_equal. lia.
Qed.

Section results.
  Context {V C : Type} (f : nat -> list V -> V) (part : split -> V -> C -> V) (combine : comb -> nat * nat -> list V -> V).
  Local Notation run := (run f part).
  Local Notation result := (result f part combine).

  Lemma run_merge p q env c v1 v2 : wired p -> wired q -> apart p q -> run p env c = Some v1 -> run q env c = Some v2 ->
    run (merge p q) env c = Some (v1 ++ v2).
  Proof.
    intros Hp Hq Hap. rewrite (merge_wired_eq p q Hp Hq). unfold PipeSigSpec.run. cbn [s_body s_ret]. set (pq := mkP _ _ _ _ _).
    assert (forall i v, args part p env c i = Some v -> args part pq env c i = Some v) as A1.
    { intros i v. unfold args. cbn [s_in pq]. destruct (s_in p !! i) as [e|] eqn:E; [|done]. by rewrite (lookup_app_l_Some _ _ _ _ E). }
    assert (forall i v, args part q env c i = Some v -> args part pq env c (length (s_in p) + i) = Some v) as A2.
    { intros i v. unfold args. cbn [s_in pq]. rewrite lookup_app_r by lia. by replace (length (s_in p) + i - length (s_in p)) with i by lia. }
    destruct (exec f (args part p env c) (fun _ => None) (s_body p)) as [l1|] eqn:E1; [|done]. cbn. intros R1.
    destruct (exec f (args part q env c) (fun _ => None) (s_body q)) as [l2|] eqn:E2; [|done]. cbn. intros R2.
    assert (exists m1, exec f (args part pq env c) (fun _ => None) (s_body p) = Some m1 /\ forall x v, l1 x = Some v -> m1 x = Some v) as (m1 & X1 & M1).
    { destruct (exec_sim f id (args part p env c) (args part pq env c) ltac:(intros i; by exists i) ltac:(done) (s_body p) (fun _ => None) (fun _ => None) l1) as (m1 & X & M); [|done|done|].
      - intros o x Ho Hx i v -> Hv. cbn. by apply A1.
      - exists m1. split; [|done]. rewrite <- X. f_equal. symmetry. rewrite <- (list_fmap_id (s_body p)) at 2. apply list_fmap_ext. intros _ [? ?] _. cbn. by rewrite list_fmap_id. }
    destruct (exec_sim f (shift (length (s_in p))) (args part q env c) (args part pq env c) ltac:(intros i; by eexists) ltac:(done) (s_body q) (fun _ => None) m1 l2) as (m2 & X2 & M2); [|done|done|].
    { intros o x Ho Hx i v -> Hv. cbn. by apply A2. }
    change ((fun o : bop => {| b_id := b_id o; b_args := shift (length (s_in p)) <$> b_args o |}) <$> s_body q) with (shift_op (length (s_in p)) <$> s_body q) in X2.
    rewrite exec_app, X1, X2. cbn. apply mapM_app_some.
    - assert (mapM (get (args part pq env c) m2) (id <$> s_ret p) = Some v1) as H; [|by rewrite list_fmap_id in H].
      apply (get_sim id (args part p env c) (args part pq env c) l1 m2 _ _ ltac:(intros i; by exists i) ltac:(done)); [intros x i v _ -> Hv; by apply A1| |done].
      intros x v Hx Hv. assert (x ∈ b_id <$> s_body p) as Hin. { destruct (decide (x ∈ b_id <$> s_body p)) as [|N]; [done|]. rewrite (exec_frame _ _ _ _ _ _ E1 N) in Hv. done. }
      apply elem_of_list_fmap in Hin as (o & -> & Ho). rewrite (exec_frame _ _ _ _ _ _ X2); [by apply M1|]. intros (o' & E & (o2 & -> & Ho2)%elem_of_list_fmap)%elem_of_list_fmap. cbn in E. by apply (Hap o o2).
    - apply (get_sim (shift (length (s_in p))) (args part q env c) (args part pq env c) l2 m2 _ _ ltac:(intros i; by eexists) ltac:(done)); [intros x i v _ -> Hv; by apply A2|intros x v _; apply M2|done].
  Qed.

  Lemma run_length p env c vs : run p env c = Some vs -> length vs = length (s_ret p).
  Proof. unfold PipeSigSpec.run. destruct (exec _ _ _ _) as [l|]; [|done]. cbn. intros H. symmetry. by eapply mapM_length. Qed.
  Lemma result_merge p q env cs : wired p -> wired q -> apart p q -> proper p -> proper q -> defined f part p env cs -> defined f part q env cs ->
    (forall k, k < length (s_ret p) -> result (merge p q) env cs k = result p env cs k) /\
    (forall k, k < length (s_ret q) -> result (merge p q) env cs (length (s_ret p) + k) = result q env cs k) /\
    length (s_ret (merge p q)) = length (s_ret p) + length (s_ret q) /\ proper (merge p q) /\ defined f part (merge p q) env cs.
  Proof.
    intros Hp Hq Hap [P1 P2] [Q1 Q2] Dp Dq. assert (forall c, c ∈ cs -> exists v1 v2, run p env c = Some v1 /\ run q env c = Some v2 /\ run (merge p q) env c = Some (v1 ++ v2)) as Hr.
    { intros c Hc. destruct (Dp c Hc) as (v1 & E1), (Dq c Hc) as (v2 & E2). exists v1, v2. split; [done|]. split; [done|]. by apply run_merge. }
    assert (s_comb (merge p q) = s_comb p ++ s_comb q /\ s_size (merge p q) = s_size p ++ s_size q /\ length (s_ret (merge p q)) = length (s_ret p) + length (s_ret q)) as (Ec & Es & El).
    { rewrite (merge_wired_eq p q Hp Hq). cbn. by rewrite app_length, fmap_length. }
    split; [|split; [|split; [done|split]]].
    - intros k Hk. unfold PipeSigSpec.result. rewrite Ec, Es, !lookup_app_l by lia. destruct (s_comb p !! k) as [cb0|]; [|done]. destruct (s_size p !! k) as [sz0|]; [|done]. f_equal. apply mapM_ext_in. intros c Hc. destruct (Hr c Hc) as (v1 & v2 & E1 & E2 & ->). rewrite E1. cbn. apply lookup_app_l. by rewrite (run_length _ _ _ _ E1).
    - intros k Hk. unfold PipeSigSpec.result. rewrite Ec, Es, !lookup_app_r by lia. rewrite P1, P2. replace (length (s_ret p) + k - length (s_ret p)) with k by lia. destruct (s_comb q !! k) as [cb0|]; [|done]. destruct (s_size q !! k) as [sz0|]; [|done]. f_equal. apply mapM_ext_in. intros c Hc. destruct (Hr c Hc) as (v1 & v2 & E1 & E2 & ->). rewrite E2. cbn. rewrite lookup_app_r by (rewrite (run_length _ _ _ _ E1); lia). f_equal. rewrite (run_length _ _ _ _ E1). lia.
    - split; rewrite El; [rewrite Ec|rewrite Es]; rewrite app_length; lia.
    - intros c Hc. destruct (Hr c Hc) as (v1 & v2 & E1 & E2 & ->). by eexists.
  Qed.

  (** * Simplification *)
  Lemma exec_sub (a a' : nat -> option V) i j : (forall k v, a k = Some v -> get a' (fun _ => None) (sub_arg i j (Arg k)) = Some v) -> forall ops l m, exec f a l ops = Some m ->
    exists m', exec f a' l (sub_body i j ops) = Some m' /\ forall x v, m x = Some v -> m' x = Some v.
  Proof.
    intros H ops l m E. apply (exec_sim f (sub_arg i j) a a') with (l := l) (m := m); try done.
    - intros k. cbn. destruct (decide (k = i)); [by eexists|]. destruct (decide (i < k)); by eexists.
    - intros o x _ _ k v -> Hv. by apply H.
  Qed.
  (** removing one argument *)
  Lemma sub_args (kept rest : list (nat * split)) v s j env (c : C) : kept !! j = Some (v, s) -> forall k w,
    (fun e => part (snd e) (env (fst e)) c) <$> (kept ++ (v, s) :: rest) !! k = Some w ->
    get (fun i => (fun e => part (snd e) (env (fst e)) c) <$> (kept ++ rest) !! i) (fun _ => None) (sub_arg (length kept) j (Arg k)) = Some w.
  Proof.
    intros Hj k w. cbn. destruct (decide (k = length kept)) as [->|N].
    - rewrite lookup_app_r, Nat.sub_diag by lia. cbn. intros E. rewrite (lookup_app_l_Some _ _ _ _ Hj). cbn. done.
    - destruct (decide (length kept < k)) as [L|L]; cbn.
      + rewrite lookup_app_r by lia. rewrite (lookup_app_r _ _ (k - 1)) by lia. replace (k - length kept) with (S (k - 1 - length kept)) by lia. done.
      + rewrite !lookup_app_l by lia. done.
  Qed.
  Definition run_raw (ins : list (nat * split)) b r env c : option (list V) := run (mkP ins b r [] []) env c.
  Lemma dedup_run orig env c : forall rest m kept b r ins b' r' vs,
    (forall v s, (v, s) ∈ kept ++ rest -> forall s', (v, s') ∈ kept ++ rest -> s = s') -> (forall v j, look m v = Some j -> exists s, kept !! j = Some (v, s)) ->
    dedup orig m kept rest b r = (ins, (b', r')) -> run_raw (kept ++ rest) b r env c = Some vs -> run_raw ins b' r' env c = Some vs.
  Proof.
    induction rest as [|[v s] rest IH]; intros m kept b r ins b' r' vs Hs Hm E Hr; cbn [dedup] in E.
    - injection E as <- <- <-. by rewrite app_nil_r in Hr.
    - destruct (look m v) as [j|] eqn:Ej; [|].
      + destruct (decide (orig !! j = Some s)).
        * eapply IH; [|exact Hm|exact E|].
          { intros v0 s0 H1 s1 H2. apply (Hs v0); rewrite elem_of_app, elem_of_cons; rewrite elem_of_app in H1, H2; tauto. }
          destruct (Hm v j Ej) as (s2 & Hj). assert (s2 = s) as ->. { apply (Hs v); rewrite elem_of_app, elem_of_cons; [left; by eapply elem_of_list_lookup_2|tauto]. }
          unfold run_raw, PipeSigSpec.run in *. cbn [s_body s_ret] in *. destruct (exec f _ _ b) as [l|] eqn:El; [|done]. cbn in Hr.
          destruct (exec_sub (args part (mkP (kept ++ (v, s) :: rest) b r [] []) env c) (args part (mkP (kept ++ rest) (sub_body (length kept) j b) (sub_arg (length kept) j <$> r) [] []) env c) (length kept) j) with (ops := b) (l := fun _ : nat => @None V) (m := l) as (m' & X & M); [|exact El|].
          { intros k w Hk. unfold args in *. cbn [s_in] in *. by apply (sub_args kept rest v s j env c Hj). }
          rewrite X. cbn. eapply (get_sim (sub_arg (length kept) j)); [| | | |exact Hr].
          -- intros k. cbn. destruct (decide (k = length kept)); [by eexists|]. destruct (decide (length kept < k)); by eexists.
          -- done.
          -- intros x k w _ -> Hk. unfold args in *. cbn [s_in] in *. by apply (sub_args kept rest v s j env c Hj).
          -- intros x w _. apply M.
        * eapply (IH m (kept ++ [(v, s)])); [| |exact E|].
          { intros v0 s0 H1 s1 H2. rewrite <- app_assoc in H1, H2. cbn in H1, H2. by apply (Hs v0). }
          { intros v0 j0 H. destruct (Hm v0 j0 H) as (s0 & Hs0). exists s0. by apply lookup_app_l_Some. }
          { by rewrite <- app_assoc. }
      + eapply (IH ((v, length kept) :: m) (kept ++ [(v, s)])); [| |exact E|].
        { intros v0 s0 H1 s1 H2. rewrite <- app_assoc in H1, H2. cbn in H1, H2. by apply (Hs v0). }
        { intros v0 j0. cbn. destruct (decide (v = v0)) as [->|]; [|intros H; destruct (Hm v0 j0 H) as (s0 & Hs0); exists s0; by apply lookup_app_l_Some]. intros [= <-]. exists s. rewrite lookup_app_r, Nat.sub_diag by lia. done. }
        { by rewrite <- app_assoc. }
  Qed.

  Lemma keep_lookup {A} (used : list bool) : forall (l : list A) k, length used = length l -> k < length (keep used l) -> keep used l !! k = l !! position used k.
  Proof.
    induction used as [|[] used IH]; intros [|x l] k E; cbn in *; try lia.
    - destruct k as [|k]; [done|]. intros. apply IH; lia.
    - intros. apply IH; lia.
  Qed.
  Lemma keep_length {A B} used : forall (l : list A) (l' : list B), length l = length l' -> length (keep used l) = length (keep used l').
  Proof. induction used as [|[] used IH]; intros [|x l] [|y l'] E; cbn in *; try lia; [f_equal|]; apply IH; lia. Qed.
  Lemma keep_mapM {A B} (g : A -> option B) used : forall l vs, mapM g l = Some vs -> mapM g (keep used l) = Some (keep used vs).
  Proof.
    induction used as [|u used IH]; intros [|x l] vs; cbn; [by intros|by intros|intros [= <-]; by destruct u|]. destruct (g x) as [y|] eqn:Ey; [|done]. cbn. destruct (mapM g l) as [ys|] eqn:E; [|done]. cbn. intros [= <-]. destruct u; cbn; [rewrite Ey; cbn|]; by rewrite (IH l ys E).
  Qed.
  Lemma run_comb ins b r cb sz cb' sz' env c : run (mkP ins b r cb sz) env c = run (mkP ins b r cb' sz') env c.
  Proof. done. Qed.
  Lemma canon_results used p p' env cs : one_split p -> proper p -> length used = length (s_ret p) -> defined f part p env cs -> canon used p = Some p' ->
    (forall k, k < length (s_ret p') -> result p' env cs k = result p env cs (position used k)) /\
    length (s_ret p') = length (keep used (s_ret p)) /\ proper p' /\ defined f part p' env cs.
  Proof.
    intros Hs [P1 P2] Hu Hd. unfold canon. destruct (dedup _ _ _ _ _ _) as [ins [b r]] eqn:E. destruct (decide _); [done|]. intros [= <-]. cbn [s_ret].
    assert (forall c, c ∈ cs -> exists vs, run p env c = Some vs /\ run (mkP ins b (keep used r) (keep used (s_comb p)) (keep used (s_size p))) env c = Some (keep used vs) /\ length r = length vs) as Hr.
    { intros c Hc. destruct (Hd c Hc) as (vs & Hvs). exists vs. split; [done|].
      assert (run_raw ins b r env c = Some vs) as H.
      { eapply (dedup_run _ env c (s_in p) [] []); [|done|exact E|]; [cbn; intros v s H1 s' H2; by apply (Hs v)|]. rewrite <- Hvs. by destruct p. }
      split; [|symmetry; apply run_length in H; cbn in H; done]. unfold run_raw, PipeSigSpec.run in *. cbn [s_body s_ret] in *. destruct (exec f _ _ b) as [l|] eqn:El; [|done]. cbn in H.
      replace (exec f (args part (mkP ins b (keep used r) (keep used (s_comb p)) (keep used (s_size p))) env c) (fun _ => None) b) with (Some l) by (symmetry; exact El). cbn. by apply keep_mapM. }
    assert (length r = length (s_ret p)) as Lr.
    { clear - E. revert E. generalize (snd <$> s_in p) at 1. generalize (@nil (nat * nat)) as m. generalize (@nil (nat * split)) as kept. generalize (s_body p) as b0. generalize (s_ret p) as r0. generalize (s_in p) as rest.
      induction rest as [|[v s] rest IH]; intros r0 b0 kept m orig E; cbn [dedup] in E; [by injection E as _ _ <-|]. destruct (look m v); [destruct (decide _)|]; apply IH in E; try done. by rewrite fmap_length in E. }
    split; [|split; [|split]].
    - intros k Hk. unfold PipeSigSpec.result. cbn [s_comb s_size].
      assert (length (keep used r) = length (keep used (s_comb p)) /\ length (keep used r) = length (keep used (s_size p))) as [L1 L2] by (split; apply keep_length; congruence).
      rewrite !keep_lookup by congruence. destruct (s_comb p !! position used k) as [cb0|]; [|done]. destruct (s_size p !! position used k) as [sz0|]; [|done]. f_equal. apply mapM_ext_in. intros c Hc. destruct (Hr c Hc) as (vs & E1 & E2 & E3). rewrite E1, E2. cbn. apply keep_lookup; [congruence|]. rewrite <- (keep_length used r vs) by done. done.
    - by apply keep_length.
    - split; cbn; apply keep_length; congruence.
    - intros c Hc. destruct (Hr c Hc) as (vs & _ & E2 & _). by eexists.
  Qed.
End results.

(** * Making a pipeline *)
Lemma rewire_args ops : forall l n, rewire ops n l ≫= arg_of = seq n (length (filter (fun e => part_of ops (fst e) = false) l)).
Proof.
  induction l as [|[a s] l IH]; intros n; [done|]. cbn [rewire]. rewrite filter_cons. cbn [fst]. destruct (part_of ops a) eqn:E.
  - rewrite decide_False by done. cbn. apply IH.
  - rewrite decide_True by done. cbn. f_equal. apply IH.
Qed.
Lemma bodies_args ops : forall l n, (bodies ops n l ≫= fun o => b_args o ≫= arg_of) = seq n (length (l ≫= outer ops)).
Proof.
  induction l as [|o l IH]; intros n; [done|]. cbn [bodies mbind list_bind]. cbn [b_args]. rewrite rewire_args. fold (outer ops o). rewrite app_length, seq_app. f_equal. apply IH.
Qed.
Lemma build_wired ops : wired (build ops) /\ returns_values (build ops) /\ proper (build ops).
Proof.
  assert (((fun o => Val (w_id o)) <$> ops) ≫= arg_of = []) as E by (clear; induction ops as [|o ops IH]; [done|]; cbn in *; done).
  split; [|split; [done|]].
  - unfold wired, arg_uses, build. cbn [s_body s_ret s_in]. by rewrite E, app_nil_r, bodies_args.
  - unfold proper, build. cbn. by rewrite !fmap_length.
Qed.
Section build.
  Context {V C : Type} (f : nat -> list V -> V) (part : split -> V -> C -> V) (combine : comb -> nat * nat -> list V -> V).
  Definition chunk (env : nat -> V) (o : wop) (c : C) : V := f (w_id o) ((fun e => part (snd e) (env (fst e)) c) <$> w_args o).

  Lemma rewire_get ops env c (a l : nat -> option V) : forall xs n, (forall x s, (x, s) ∈ xs -> part_of ops x = true -> l x = Some (part s (env x) c)) ->
    (forall i e, filter (fun e => part_of ops (fst e) = false) xs !! i = Some e -> a (n + i) = Some (part (snd e) (env (fst e)) c)) ->
    mapM (get a l) (rewire ops n xs) = Some ((fun e => part (snd e) (env (fst e)) c) <$> xs).
  Proof.
    induction xs as [|[x s] xs IH]; intros n Hl Ha; [done|]. cbn [rewire]. rewrite filter_cons in Ha. cbn [fst] in Ha. destruct (part_of ops x) eqn:E.
    - rewrite decide_False in Ha by done. cbn. rewrite (Hl x s) by (done || left). cbn. rewrite IH; [done| |done]. intros; apply Hl; [by right|done].
    - rewrite decide_True in Ha by done. cbn. pose proof (Ha 0 (x, s) eq_refl) as H0. rewrite Nat.add_0_r in H0. rewrite H0. cbn. rewrite IH; [done|intros; apply Hl; [by right|done]|]. intros i e Hi. rewrite <- (Ha (S i) e Hi). f_equal. lia.
  Qed.
  Lemma bodies_exec ops env cs c : chained ops -> (forall o, o ∈ ops -> distributes f part combine env cs o) -> c ∈ cs -> forall rest don l,
    ops = don ++ rest -> (forall o, o ∈ don -> l (w_id o) = Some (chunk env o c)) ->
    exists m, exec f (args part (build ops) env c) l (bodies ops (length (don ≫= outer ops)) rest) = Some m /\ forall o, o ∈ ops -> m (w_id o) = Some (chunk env o c).
  Proof.
    intros [Hn Hch] Hd Hc. induction rest as [|o rest IH]; intros don l E Hl.
    - exists l. split; [done|]. rewrite app_nil_r in E. by subst don.
    - cbn [bodies PipeSigSpec.exec b_args b_id]. rewrite (rewire_get ops env c).
      + fold (chunk env o c). assert (length (don ≫= outer ops) + length (outer ops o) = length ((don ++ [o]) ≫= outer ops)) as ->. { rewrite bind_app, app_length. cbn. by rewrite app_nil_r. }
        apply IH; [by rewrite <- app_assoc|]. intros o' Ho'. unfold define. destruct (decide (w_id o' = w_id o)) as [Ei|Ni].
        * assert (o' = o) as ->; [|done]. assert (o' ∈ ops /\ o ∈ ops) as [G1 G2] by (rewrite E; rewrite elem_of_app, elem_of_list_singleton in Ho'; rewrite !elem_of_app, !elem_of_cons; tauto).
          apply elem_of_list_lookup in G1 as (i & Hi), G2 as (j & Hj). assert (i = j) as ->; [|congruence]. eapply (NoDup_lookup (w_id <$> ops)); [done| |]; rewrite list_lookup_fmap; [by rewrite Hi|rewrite Hj; cbn; by rewrite Ei].
        * apply Hl. apply elem_of_app in Ho' as [?|H]; [done|]. apply elem_of_list_singleton in H as ->. done.
      + intros x s Hx Hp. unfold part_of in Hp. apply bool_decide_eq_true in Hp. destruct (Hch don o rest x s E Hx Hp) as (-> & o' & Ho' & <- & Hcb). rewrite (Hl o' Ho'). f_equal. destruct (Hd o') as [_ Hd']; [rewrite E; apply elem_of_app; by left|]. by apply Hd'.
      + intros i e Hi. unfold args. fold (outer ops o) in Hi. assert (s_in (build ops) !! (length (don ≫= outer ops) + i) = Some e) as ->; [|done].
        unfold build. cbn [s_in]. assert (ops ≫= outer ops = (don ++ o :: rest) ≫= outer ops) as -> by (by rewrite <- E). rewrite bind_app. cbn [mbind list_bind]. rewrite lookup_app_r by lia. replace (length (don ≫= outer ops) + i - length (don ≫= outer ops)) with i by lia. by apply lookup_app_l_Some.
  Qed.
  Lemma mapM_some_fmap {X Y} (g : X -> option Y) (h : X -> Y) l : (forall x, x ∈ l -> g x = Some (h x)) -> mapM g l = Some (h <$> l).
  Proof. induction l as [|x l IH]; intros H; [done|]. cbn. rewrite H by left. cbn. by rewrite IH by (intros; apply H; by right). Qed.
  Lemma build_run ops env cs c : chained ops -> (forall o, o ∈ ops -> distributes f part combine env cs o) -> c ∈ cs -> run f part (build ops) env c = Some ((fun o => chunk env o c) <$> ops).
  Proof.
    intros H1 H2 H3. unfold run. destruct (bodies_exec ops env cs c H1 H2 H3 ops [] (fun _ => None)) as (m & E & Hm); [done|by intros o ?%elem_of_nil|]. cbn [mbind list_bind length] in E. cbn [build s_body s_ret]. cbn [build] in E. rewrite E. cbn.
    rewrite mapM_fmap_eq. apply mapM_some_fmap. intros o Ho. cbn. by apply Hm.
  Qed.
  Lemma build_result ops env cs : chained ops -> (forall o, o ∈ ops -> distributes f part combine env cs o) ->
    (forall k o, ops !! k = Some o -> result f part combine (build ops) env cs k = Some (env (w_id o))) /\ defined f part (build ops) env cs.
  Proof.
    intros H1 H2. split.
    - intros k o Hk. unfold result. change (s_comb (build ops)) with (w_comb <$> ops). change (s_size (build ops)) with (w_size <$> ops). rewrite !list_lookup_fmap, Hk. cbn [fmap option_fmap option_map]. assert (o ∈ ops) as Ho by (by eapply elem_of_list_lookup_2). destruct (H2 o Ho) as [Hc _]. rewrite <- Hc.
      rewrite (mapM_some_fmap _ (chunk env o)); [done|]. intros c Hcs. rewrite (build_run ops env cs c H1 H2 Hcs). cbn. by rewrite list_lookup_fmap, Hk.
    - intros c Hc. eexists. by apply (build_run ops env cs c).
  Qed.
End build.
(** Nothing to simplify means no duplicates *)
Lemma dedup_none orig : forall rest m kept b r ins br, orig = snd <$> (kept ++ rest) -> (forall v j, look m v = Some j -> exists s, kept !! j = Some (v, s)) -> (forall v s, (v, s) ∈ kept -> exists j, look m v = Some j) ->
  NoDup kept -> (forall v s s', (v, s) ∈ kept ++ rest -> (v, s') ∈ kept ++ rest -> s = s') -> dedup orig m kept rest b r = (ins, br) -> length ins = length kept + length rest -> NoDup (kept ++ rest).
Proof.
  assert (forall orig rest m kept b r, length (fst (dedup orig m kept rest b r)) <= length kept + length rest) as Hle.
  { intros o2. induction rest as [|[v s] rest IH]; intros m kept b r; cbn [dedup]; [cbn; lia|]. destruct (look m v); [destruct (decide _)|].
    - etrans; [apply IH|]. cbn. lia.
    - etrans; [apply IH|]. rewrite app_length. cbn. lia.
    - etrans; [apply IH|]. rewrite app_length. cbn. lia. }
  induction rest as [|[v s] rest IH]; intros m kept b r ins br Eo Hm Hk Hn Hs E El; [by rewrite app_nil_r|]. cbn [dedup] in E.
  destruct (look m v) as [j|] eqn:Ej.
  - exfalso. destruct (Hm v j Ej) as (s0 & Hj). assert (s0 = s) as ->. { apply (Hs v); rewrite elem_of_app, elem_of_cons; [left; by eapply elem_of_list_lookup_2|tauto]. }
    rewrite decide_True in E. 2: { rewrite Eo, list_lookup_fmap, (lookup_app_l_Some _ _ _ _ Hj). done. }
    pose proof (Hle orig rest m kept (sub_body (length kept) j b) (sub_arg (length kept) j <$> r)) as H. rewrite E in H. cbn in H, El. lia.
  - assert ((v, s) ∉ kept) as Hv. { intros H. destruct (Hk v s H) as (j & Hj). congruence. }
    replace (kept ++ (v, s) :: rest) with ((kept ++ [(v, s)]) ++ rest) in * by (by rewrite <- app_assoc). eapply (IH _ (kept ++ [(v, s)])); [exact Eo| | | |exact Hs|exact E|].
    + intros v0 j0. cbn. destruct (decide (v = v0)) as [->|]; [|intros H; destruct (Hm v0 j0 H) as (s0 & Hs0); exists s0; by apply lookup_app_l_Some]. intros [= <-]. exists s. rewrite lookup_app_r, Nat.sub_diag by lia. done.
    + intros v0 s0 H. cbn. destruct (decide (v = v0)); [by eexists|]. apply elem_of_app in H as [H|H]; [by apply (Hk v0 s0)|]. apply elem_of_list_singleton in H. congruence.
    + apply NoDup_app. split; [done|]. split; [|apply NoDup_singleton]. intros x Hx ->%elem_of_list_singleton. done.
    + rewrite app_length. cbn in *. lia.
Qed.
Lemma canon_none used p : one_split p -> canon used p = None -> NoDup (s_in p).
Proof.
  intros Hs. unfold canon. destruct (dedup _ _ _ _ _ _) as [ins [b r]] eqn:E. destruct (decide _) as [[_ El]|]; [|done]. intros _.
  eapply (dedup_none _ (s_in p) [] []); [reflexivity|done|by intros v s ?%elem_of_nil|apply NoDup_nil_2|exact Hs|exact E|done].
Qed.
