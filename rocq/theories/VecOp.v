(** C66: what vectorizable operations declare (how their operands are split, how their results are combined, the sizes) is right. *)
From stdpp Require Import base numbers list list_numbers.
From Coq Require Import ZArith NArith Lia.
From Verif Require PartitionSpec LoadPartitioningModel LoadPartitioning.
From Verif Require Import CppBase CSRModel AggModel AggSpec MachInt PipeSigModel PipeSigSpec PipeSigProofs PipeSig VecOpModel VecOpSpec VecOpProofs VecOpOps.

(** * Chunks *)
Lemma batches_cover fuel b s e : 0 < b -> e - s <= fuel -> Forall (fun c => fst c < snd c) (batches fuel b s e) /\ (batches fuel b s e ≫= fun c => seq (fst c) (snd c - fst c)) = seq s (e - s).
Proof.
  intros Hb. revert s. induction fuel as [|fuel IH]; intros s Hf. { cbn. replace (e - s) with 0 by lia. done. }
  cbn [batches]. destruct (Nat.ltb_spec s e) as [L|L]. 2: { replace (e - s) with 0 by lia. done. }
  destruct (IH (s + b)) as [H1 H2]; [lia|]. split; [constructor; [cbn; lia|done]|]. cbn [mbind list_bind fst snd]. change (list_bind ?f ?l) with (l ≫= f). rewrite H2.
  replace (e - s) with ((s + b) `min` e - s + (e - (s + b))) by lia. rewrite seq_app. f_equal. destruct (decide (s + b <= e)); [f_equal; lia|]. by replace (e - (s + b)) with 0 by lia.
Qed.
Lemma all_batches_cover b tasks n : 0 < b -> covers n tasks -> covers n (all_batches b tasks).
Proof.
  intros Hb [H1 H2]. unfold all_batches. assert (Forall (fun c => fst c < snd c) (all_batches b tasks) /\ (all_batches b tasks ≫= fun c => seq (fst c) (snd c - fst c)) = tasks ≫= fun c => seq (fst c) (snd c - fst c)) as [H3 H4].
  { clear H1 H2. unfold all_batches. induction tasks as [|t ts [IH1 IH2]]; [split; [constructor|reflexivity]|]. destruct (batches_cover (snd t - fst t) b (fst t) (snd t) Hb (le_n _)) as [B1 B2]. cbn. split; [by apply Forall_app|].
    change (list_bind ?f ?l) with (l ≫= f). rewrite bind_app. f_equal; [exact B2|exact IH2]. }
  split; [exact H3|]. unfold all_batches in H4. by rewrite H4.
Qed.
Definition to_nats (r : N * N) : nat * nat := (N.to_nat (fst r), N.to_nat (snd r)).
Lemma consecutive_covers a b l : PartitionSpec.consecutive a b l -> (a <= b)%N /\ Forall (fun c => fst c < snd c) (to_nats <$> l) /\ ((to_nats <$> l) ≫= fun c => seq (fst c) (snd c - fst c)) = seq (N.to_nat a) (N.to_nat b - N.to_nat a).
Proof.
  revert a. induction l as [|r l IH]; intros a; cbn [PartitionSpec.consecutive]. { intros ->. split; [lia|]. split; [constructor|]. by rewrite Nat.sub_diag. }
  intros (<- & H1 & H2). destruct (IH _ H2) as (L & H3 & H4). split; [lia|]. split; [constructor; [cbn; lia|done]|]. cbn. change (list_bind ?f ?k) with (k ≫= f). change (list_fmap _ _ ?f l) with (f <$> l). rewrite H4.
  replace (N.to_nat b - N.to_nat (fst r)) with (N.to_nat (snd r) - N.to_nat (fst r) + (N.to_nat b - N.to_nat (snd r))) by lia. rewrite seq_app. do 2 f_equal. lia.
Qed.

Section theorems.
Context {T : Type} (E : elems T).

(** One operation: its chunks, combined as declared into a result of the declared size, give what the operation gives on the whole operands, and if the results are
    combined by rows then each chunk gives the rows of the result that a pipeline would cut from it. *)
Theorem C66_op n cs (o : vop T) vs : exact E -> covers n cs -> Forall shaped vs -> right_op o -> suits n o vs -> sem E o vs <> Err ->
  let chunk c := sem E o (zip_with (fun s v => part s v c) (splits o vs) vs) in
  combine E cs (comb_of o) (out_size o vs) (chunk <$> cs) = sem E o vs /\ (comb_of o = CRows -> forall c, c ∈ cs -> chunk c = part Rows (sem E o vs) c) /\ shaped (sem E o vs).
Proof. intros HE Hc Hsh Hr Hsu Hs. exact (works_ok E HE n cs Hc o vs Hsh Hr Hsu Hs). Qed.

(** The operations of a pipeline that processes [n] rows, and the values without vectorization *)
Record program (n : nat) (env : nat -> val T) (l : list (node T)) : Prop := {
  p_names : NoDup (n_id <$> l);
  p_values : forall o, o ∈ l -> env (n_id o) = sem E (n_op o) (env <$> n_args o) /\ env (n_id o) <> Err;
  p_shaped : forall o a, o ∈ l -> a ∈ n_args o -> shaped (env a);
  p_right : forall o, o ∈ l -> right_op (n_op o) /\ suits n (n_op o) (env <$> n_args o)
}.
Lemma meaning_in l o vs : NoDup (n_id <$> l) -> o ∈ l -> meaning E l (n_id o) vs = sem E (n_op o) vs.
Proof.
  induction l as [|o' l IH]; intros Hn Hin; [by apply elem_of_nil in Hin|]. cbn in Hn. apply NoDup_cons in Hn as [H1 H2]. apply elem_of_cons in Hin as [->|Hin]; cbn [meaning].
  - by rewrite Nat.eqb_refl.
  - destruct (Nat.eqb_spec (n_id o) (n_id o')) as [He|He]; [|by apply IH]. destruct H1. rewrite <- He. by apply elem_of_list_fmap_1.
Qed.
Lemma parts_zip env c args ss : (fun e : nat * split => part (snd e) (env (fst e)) c) <$> zip args ss = zip_with (fun s (v : val T) => part s v c) ss (env <$> args).
Proof. revert ss. induction args as [|a args IH]; intros [|s ss]; cbn; try done. f_equal. apply IH. Qed.
Lemma program_distributes n cs env l o l' : exact E -> covers n cs -> program n env l -> NoDup (n_id <$> l') -> (forall x, x ∈ l -> x ∈ l') -> o ∈ l -> distributes (meaning E l') part (combine E cs) env cs (declared env o).
Proof.
  intros HE Hc [P1 P2 P3 P4] Hn' Hsub Ho. destruct (P2 o Ho) as [V1 V2], (P4 o Ho) as [R1 R2].
  destruct (C66_op n cs (n_op o) (env <$> n_args o) HE Hc) as (H1 & H2 & _); [|done|done|congruence|].
  { rewrite Forall_fmap. apply Forall_forall. intros a Ha. by apply (P3 o). }
  unfold distributes, declared. cbn [w_id w_args w_comb w_size]. rewrite V1.
  assert (forall c, meaning E l' (n_id o) ((fun e => part (snd e) (env (fst e)) c) <$> zip (n_args o) (splits (n_op o) (env <$> n_args o))) =
    sem E (n_op o) (zip_with (fun s v => part s v c) (splits (n_op o) (env <$> n_args o)) (env <$> n_args o))) as Hm.
  { intros c. rewrite (meaning_in l' o) by auto. by rewrite parts_zip. }
  split.
  - rewrite <- H1. f_equal. apply list_fmap_ext. intros i c _. apply Hm.
  - intros Hcb c Hin. rewrite Hm. by apply H2.
Qed.

(** A pipeline of such operations returns what the operations return without vectorization, whatever the chunks are. *)
Theorem C66_pipeline n cs env l : exact E -> covers n cs -> program n env l -> chained (declared env <$> l) ->
  forall k o, l !! k = Some o -> result (meaning E l) part (combine E cs) (build (declared env <$> l)) env cs k = Some (env (n_id o)).
Proof.
  intros HE Hc HP Hch k o Hk. destruct (C65_build (meaning E l) part (combine E cs) (declared env <$> l) env cs Hch) as (H1 & _).
  - intros w Hw. apply elem_of_list_fmap in Hw as (x & -> & Hx). apply (program_distributes n cs env l); try done. by apply (p_names n env l).
  - rewrite (H1 k (declared env o)); [done|]. rewrite list_lookup_fmap, Hk. done.
Qed.
(** The same for several such pipelines that are combined to one, also after the combined pipeline is simplified. *)
Theorem C66_pipelines n cs env ls : exact E -> covers n cs -> program n env (concat ls) -> (forall l, l ∈ ls -> chained (declared env <$> l)) ->
  let p := merge_all ((fun l : list (node T) => declared env <$> l) <$> ls) in
  (forall k o, concat ls !! k = Some o -> result (meaning E (concat ls)) part (combine E cs) p env cs k = Some (env (n_id o))) /\
  (forall used p', one_split p -> length used = length (concat ls) -> canon used p = Some p' ->
    forall k o, keep used (concat ls) !! k = Some o -> result (meaning E (concat ls)) part (combine E cs) p' env cs k = Some (env (n_id o))).
Proof.
  intros HE Hc HP Hch p. assert (concat ((fun l : list (node T) => declared env <$> l) <$> ls) = declared env <$> concat ls) as Hcc.
  { clear. induction ls as [|l ls IH]; [done|]. cbn. change (list_fmap ?a ?b ?f ?k) with (f <$> k). rewrite fmap_app. f_equal. exact IH. }
  destruct (C65_all (meaning E (concat ls)) part (combine E cs) ((fun l : list (node T) => declared env <$> l) <$> ls) env cs) as [H1 H2].
  - rewrite Hcc, <- list_fmap_compose. by apply (p_names n env).
  - intros ops Ho. apply elem_of_list_fmap in Ho as (l & -> & Hl). by apply Hch.
  - intros w Hw. rewrite Hcc in Hw. apply elem_of_list_fmap in Hw as (x & -> & Hx). apply (program_distributes n cs env (concat ls)); try done. by apply (p_names n env _ HP).
  - rewrite Hcc in H1, H2. split.
    + intros k o Hk. unfold p. rewrite (H1 k (declared env o)); [done|]. by rewrite list_lookup_fmap, Hk.
    + intros used p' Hs Hu Hca k o Hk. rewrite fmap_length in H2. rewrite (H2 used p' Hs Hu Hca k (declared env o)); [done|].
      assert (keep used (declared env <$> concat ls) = declared env <$> keep used (concat ls)) as ->; [|by rewrite list_lookup_fmap, Hk].
      clear. generalize (concat ls). induction used as [|[] used IH]; intros [|x k]; cbn; try done; by rewrite IH.
Qed.

(** The pipeline runs over exactly these rows (if there is one). *)
Lemma split_heights n o (vs : list (val T)) v : sem E o vs <> Err -> suits n o vs -> (v, Rows) ∈ zip vs (splits o vs) -> height v = n \/ height v = 1.
Proof.
  intros Hs Hsu Hin. destruct o; destruct vs as [|[?|x|] [|[?|y|] [|? ?]]]; cbn in Hs, Hsu, Hin; try done;
    repeat (apply elem_of_cons in Hin as [Hin|Hin]; [try discriminate Hin; injection Hin as ->; cbn; repeat match goal with H : _ /\ _ |- _ => destruct H end; repeat match goal with H : true = true -> _ |- _ => specialize (H eq_refl) end; cbn in *; intuition congruence|]); try (by apply elem_of_nil in Hin).
Qed.
Lemma first_split n o (vs : list (val T)) : sem E o vs <> Err -> suits n o vs -> exists v vs' ss, vs = v :: vs' /\ splits o vs = Rows :: ss /\ height v = n.
Proof.
  intros Hs Hsu. destruct o; destruct vs as [|[?|x|] [|[?|y|] [|? ?]]]; cbn in Hs, Hsu; try done; (eexists _, _, _; split; [reflexivity|]; split; [reflexivity|]; cbn; repeat match goal with H : _ /\ _ |- _ => destruct H end; done).
Qed.
Lemma pipe_len_bounds (env : nat -> val T) ins n : (forall a, (a, Rows) ∈ ins -> height (env a) <= n) -> (exists a, (a, Rows) ∈ ins /\ height (env a) = n) -> pipe_len ins env = n.
Proof.
  unfold pipe_len. intros H1 H2. assert (forall acc, acc <= n -> (acc = n \/ exists a, (a, Rows) ∈ ins /\ height (env a) = n) -> foldl (fun len e => match snd e with Rows => Nat.max len (height (env (fst e))) | Whole => len end) acc ins = n) as H; [|by apply H; [lia|right]].
  clear H2. induction ins as [|[a s] ins IH]; intros acc Ha He; cbn. { destruct He as [He|(? & []%elem_of_nil & _)]. done. }
  apply IH; [intros; apply H1; by right|..].
  - destruct s; [|done]. specialize (H1 a ltac:(left)). lia.
  - destruct He as [->|(b & Hb & He)].
    + left. destruct s; [|done]. specialize (H1 a ltac:(left)). lia.
    + apply elem_of_cons in Hb as [Hb|Hb]; [|right; by exists b]. injection Hb as <- <-. left. lia.
Qed.
Lemma zip_env (env : nat -> val T) a s k (ss : list split) : (a, s) ∈ zip k ss -> (env a, s) ∈ zip (env <$> k) ss.
Proof. revert k. induction ss as [|s' ss IH]; intros [|b k]; cbn; try (intros Ha; by apply elem_of_nil in Ha). intros Ha. apply elem_of_cons in Ha as [Ha|Ha]; [injection Ha as -> ->; left|right; by apply IH]. Qed.
Theorem C66_length n env l : 0 < n -> program n env l -> chained (declared env <$> l) -> l <> [] -> pipe_len (s_in (build (declared env <$> l))) env = n.
Proof.
  intros Hn HP Hch Hl. apply pipe_len_bounds.
  - intros a Ha. cbn [build s_in] in Ha. apply elem_of_list_bind in Ha as (w & Ha & Hw). apply elem_of_list_fmap in Hw as (o & -> & Ho). unfold outer in Ha. rewrite elem_of_list_filter in Ha. destruct Ha as [_ Ha]. cbn [declared w_args] in Ha.
    destruct (p_values n env l HP o Ho) as [V1 V2], (p_right n env l HP o Ho) as [R1 R2]. rewrite V1 in V2.
    assert ((env a, Rows) ∈ zip (env <$> n_args o) (splits (n_op o) (env <$> n_args o))) as Hz.
    { by apply zip_env. }
    destruct (split_heights n _ _ _ V2 R2 Hz); lia.
  - destruct l as [|o l]; [done|]. destruct (p_values n env _ HP o ltac:(left)) as [V1 V2], (p_right n env _ HP o ltac:(left)) as [R1 R2]. rewrite V1 in V2.
    destruct (first_split n _ _ V2 R2) as (v & vs' & ss & E1 & E2 & E3). destruct (n_args o) as [|a args] eqn:Ea; [done|]. cbn in E1. injection E1 as <- E1. exists a. split; [|done].
    cbn [build s_in]. apply elem_of_list_bind. exists (declared env o). split; [|rewrite fmap_cons; left]. unfold outer. rewrite elem_of_list_filter. cbn [declared w_args]. rewrite Ea, E2. cbn [zip zip_with]. split; [|left].
    unfold part_of. apply bool_decide_eq_false. intros Hin. destruct Hch as [_ Hch]. destruct (Hch [] (declared env o) (declared env <$> l) a Rows) as (_ & x & Hx & _); [done| |done|by apply elem_of_nil in Hx].
    cbn [declared w_args]. rewrite Ea, E2. left.
Qed.

(** With a single queue of tasks, for any scheduling scheme, minimal task size, number of threads and size of the batches: *)
Theorem C66_scheduled ff sch minTask threads b n env l : exact E -> 0 < n -> (N.of_nat n < 2 ^ 64)%N -> (1 <= threads)%N -> 0 < b -> program n env l -> chained (declared env <$> l) -> l <> [] ->
  let p := build (declared env <$> l) in
  exists tasks, LoadPartitioningModel.singleQueueTasks ff (pipe_len (s_in p) env) sch (N.of_nat (pipe_len (s_in p) env)) minTask threads = LoadPartitioningModel.Done tasks /\
    let cs := all_batches b (to_nats <$> tasks) in forall k o, l !! k = Some o -> result (meaning E l) part (combine E cs) p env cs k = Some (env (n_id o)).
Proof.
  intros HE Hn Hn2 Ht Hb HP Hch Hl p. unfold p. rewrite (C66_length n) by done.
  destruct (LoadPartitioning.C03_single_queue_partition ff sch (N.of_nat n) minTask threads Hn2 Ht) as (tasks & H1 & _ & H3). rewrite Nat2N.id in H1. exists tasks. split; [exact H1|]. intros cs. apply (C66_pipeline n); try done. apply all_batches_cover; [done|].
  destruct (consecutive_covers _ _ _ H3) as (_ & H4 & H5). split; [exact H4|]. rewrite H5. rewrite Nat2N.id. change (N.to_nat 0) with 0. by rewrite Nat.sub_0_r.
Qed.
End theorems.

(** * Integers of 64 bits *)
Definition e64 : elems int64 := mkE vzero (atop ar64) (abot ar64) (aadd ar64) (amin ar64) (amax ar64) (amul ar64) (fun x => if (0 <=? ival x)%Z then Some (Z.to_nat (ival x)) else None).
Theorem C66_exact64 : exact e64.
Proof. split; [|split]; [destruct add64_monoid|destruct min64_monoid|destruct max64_monoid]; by repeat split. Qed.
Definition M (c : nat) (l : list (list Z)) : val int64 := Mat (mkM c (List.map (List.map wrap) l)).
Definition shown (v : val int64) : option (nat * list (list Z)) := match v with Mat m => Some (ncol m, List.map (List.map ival) (rows m)) | _ => None end.
Definition value_of (l : list (node int64)) (ins : nat -> val int64) : nat -> val int64 :=
  foldl (fun env o i => if decide (i = n_id o) then sem e64 (n_op o) (env <$> n_args o) else env i) ins l.

(** (X + r), its sum, its product with Y, the column minima of X; chunks of two and one rows, in any order *)
Definition x_in (i : nat) : val int64 := match i with 0 => M 2 [[1; 2]; [3; 4]; [5; 6]]%Z | 1 => M 2 [[10; 20]]%Z | 2 => M 1 [[1]; [-1]]%Z | _ => Err end.
Definition x_l : list (node int64) := [mkN 10 (EwBin (aadd ar64)) [0; 1]; mkN 11 (AllAgg Sum) [10]; mkN 12 (MatMul false false) [10; 2]; mkN 13 (ColAgg Min) [0]].
Definition x_env := value_of x_l x_in.
Definition is_rows (s : split) : bool := match s with Rows => true | Whole => false end.
Definition is_crows (c : comb) : bool := match c with CRows => true | _ => false end.
Fixpoint chainedb (all seen rest : list wop) : bool :=
  match rest with [] => true | o :: rest' =>
    forallb (fun e => negb (existsb (fun o' => w_id o' =? fst e) all) || is_rows (snd e) && existsb (fun o' => (w_id o' =? fst e) && is_crows (w_comb o')) seen) (w_args o) && chainedb all (seen ++ [o]) rest' end.
Lemma chainedb_ok all rest : forall seen, all = seen ++ rest -> chainedb all seen rest = true ->
  forall l1 o l2 a s, rest = l1 ++ o :: l2 -> (a, s) ∈ w_args o -> a ∈ w_id <$> all -> s = Rows /\ exists o', o' ∈ seen ++ l1 /\ w_id o' = a /\ w_comb o' = CRows.
Proof.
  induction rest as [|o rest IH]; intros seen Ha Hb l1 o1 l2 a s Hr Hin Hal; [by destruct l1|]. cbn in Hb. apply andb_true_iff in Hb as [Hb1 Hb2]. destruct l1 as [|x l1]; cbn in Hr; injection Hr as <- Hr.
  - rewrite forallb_forall in Hb1. apply elem_of_list_In in Hin. specialize (Hb1 _ Hin). cbn in Hb1. apply orb_true_iff in Hb1 as [Hb1|Hb1].
    + apply negb_true_iff in Hb1. apply elem_of_list_fmap in Hal as (o' & -> & Ho'). apply elem_of_list_In in Ho'. assert (existsb (fun o'' => w_id o'' =? w_id o') all = true) as He; [|congruence]. apply existsb_exists. exists o'. split; [done|]. apply Nat.eqb_refl.
    + apply andb_true_iff in Hb1 as [Hs Hb1]. split; [by destruct s|]. apply existsb_exists in Hb1 as (o' & Ho' & Hc). apply andb_true_iff in Hc as [Hc1 Hc2]. exists o'. apply elem_of_list_In in Ho'. rewrite app_nil_r. split; [done|]. split; [by apply Nat.eqb_eq|]. by destruct (w_comb o').
  - destruct (IH (seen ++ [o])) with l1 o1 l2 a s as (H1 & o' & H2 & H3); try done; [by rewrite <- app_assoc|]. split; [done|]. exists o'. by rewrite <- app_assoc in H2.
Qed.
Lemma chainedb_sound ops : NoDup (w_id <$> ops) -> chainedb ops [] ops = true -> chained ops.
Proof. intros H1 H2. split; [done|]. intros l1 o l2 a s Hl Ha Hin. destruct (chainedb_ok ops ops [] eq_refl H2 l1 o l2 a s Hl Ha Hin) as (H3 & o' & H4). split; [done|]. by exists o'. Qed.

Lemma x_ok : program e64 3 x_env x_l.
Proof.
  split.
  - apply (bool_decide_unpack _). vm_compute. exact I.
  - apply Forall_forall. repeat constructor; discriminate.
  - intros o a Ho. revert o Ho a. apply (Forall_forall (fun o => forall a, a ∈ n_args o -> shaped (x_env a))).
    repeat constructor; apply Forall_forall; repeat constructor.
  - apply Forall_forall. repeat (apply Forall_cons; split); [split; [exact I|split; [reflexivity|intros _; right; reflexivity]]|(split; [exact I|reflexivity])..|constructor].
Qed.
Lemma x_chained : chained (declared x_env <$> x_l).
Proof. apply chainedb_sound; [|reflexivity]. apply (bool_decide_unpack _). vm_compute. exact I. Qed.
Theorem C66_case : covers 3 [(2, 3); (0, 2)] /\ program e64 3 x_env x_l /\ chained (declared x_env <$> x_l) /\
  List.map (fun i => shown (x_env i)) [10; 11; 12; 13] = [Some (2, [[11; 22]; [13; 24]; [15; 26]]%Z); Some (1, [[111]]%Z); Some (1, [[-11]; [-11]; [-11]]%Z); Some (2, [[1; 2]]%Z)] /\
  pipe_len (s_in (build (declared x_env <$> x_l))) x_env = 3 /\
  (forall k o, x_l !! k = Some o -> result (meaning e64 x_l) part (combine e64 [(2, 3); (0, 2)]) (build (declared x_env <$> x_l)) x_env [(2, 3); (0, 2)] k = Some (x_env (n_id o))).
Proof.
  assert (covers 3 [(2, 3); (0, 2)]) as Hc. { split; [repeat constructor|]. apply (bool_decide_unpack _). vm_compute. exact I. }
  split; [exact Hc|]. split; [apply x_ok|]. split; [apply x_chained|]. split; [vm_compute; reflexivity|]. split; [reflexivity|].
  apply (C66_pipeline e64 3); [apply C66_exact64|exact Hc|apply x_ok|apply x_chained].
Qed.

(** * Where the declarations are wrong *)
(** What a pipeline of the operations [l] returns *)
Definition vectorized (l : list (node int64)) (ins : nat -> val int64) (cs : list (nat * nat)) (k : nat) : option (option (nat * list (list Z))) :=
  let env := value_of l ins in shown <$> result (meaning e64 l) part (combine e64 cs) (build (declared env <$> l)) env cs k.
Definition plain (l : list (node int64)) (ins : nat -> val int64) (k : nat) : option (option (nat * list (list Z))) := (fun o => shown (value_of l ins (n_id o))) <$> l !! k.

(** The product t(X) @ Y, the transposition being a flag of the product: X is split although its columns would have to be, and the results are combined by rows. *)
Definition tmm_in (i : nat) : val int64 := match i with 0 => M 2 [[1; 2]; [3; 4]]%Z | 1 => M 1 [[1]; [1]]%Z | _ => Err end.
Definition tmm_l : list (node int64) := [mkN 10 (MatMul true false) [0; 1]].
Theorem C66_trans_left_refuted : chained (declared (value_of tmm_l tmm_in) <$> tmm_l) /\ covers 2 [(0, 1); (1, 2)] /\
  plain tmm_l tmm_in 0 = Some (Some (1, [[4]; [6]]%Z)) /\ vectorized tmm_l tmm_in [(0, 1); (1, 2)] 0 = Some None.
Proof.
  split. { apply chainedb_sound; [|reflexivity]. apply (bool_decide_unpack _). vm_compute. exact I. }
  split. { split; [repeat constructor|]. apply (bool_decide_unpack _). vm_compute. exact I. }
  split; vm_compute; reflexivity.
Qed.
(** X @ t(X) as one operation: X is cut by rows and the results are added as for t(X) @ X, but the products of rows of different chunks are missing, and the results of the chunks are smaller than the declared size. *)
Definition syrk_in (i : nat) : val int64 := match i with 0 => M 2 [[1; 2]; [3; 4]]%Z | _ => Err end.
Definition syrk_l (tl : bool) : list (node int64) := [mkN 10 (Syrk tl) [0]].
Theorem C66_syrk_refuted : chained (declared (value_of (syrk_l false) syrk_in) <$> syrk_l false) /\ covers 2 [(0, 1); (1, 2)] /\
  plain (syrk_l false) syrk_in 0 = Some (Some (2, [[5; 11]; [11; 25]]%Z)) /\ vectorized (syrk_l false) syrk_in [(0, 1); (1, 2)] 0 <> plain (syrk_l false) syrk_in 0 /\
  vectorized (syrk_l true) syrk_in [(0, 1); (1, 2)] 0 = plain (syrk_l true) syrk_in 0.
Proof.
  split. { apply chainedb_sound; [|reflexivity]. apply (bool_decide_unpack _). vm_compute. exact I. }
  split. { split; [repeat constructor|]. apply (bool_decide_unpack _). vm_compute. exact I. }
  split; [vm_compute; reflexivity|]. split; [vm_compute; discriminate|vm_compute; reflexivity].
Qed.
(** A row vector computed inside of the pipeline: t = r * r, s = sum(t), y = X + t with a matrix X of three rows. Every chunk computes all of t: its sum is counted once per chunk. *)
Definition vec_in (i : nat) : val int64 := match i with 0 => M 2 [[1; 2]; [3; 4]; [5; 6]]%Z | 1 => M 2 [[1; 2]]%Z | _ => Err end.
Definition vec_l : list (node int64) := [mkN 10 (EwBin (amul ar64)) [1; 1]; mkN 11 (AllAgg Sum) [10]; mkN 12 (EwBin (aadd ar64)) [0; 10]].
Theorem C66_row_vector_refuted : chained (declared (value_of vec_l vec_in) <$> vec_l) /\ covers 3 [(0, 2); (2, 3)] /\ pipe_len (s_in (build (declared (value_of vec_l vec_in) <$> vec_l))) (value_of vec_l vec_in) = 3 /\
  plain vec_l vec_in 1 = Some (Some (1, [[5]]%Z)) /\ vectorized vec_l vec_in [(0, 2); (2, 3)] 1 = Some (Some (1, [[10]]%Z)) /\
  plain vec_l vec_in 0 = Some (Some (2, [[1; 4]]%Z)) /\ vectorized vec_l vec_in [(0, 2); (2, 3)] 0 = Some None /\
  vectorized vec_l vec_in [(0, 2); (2, 3)] 2 = plain vec_l vec_in 2.
Proof.
  split. { apply chainedb_sound; [|reflexivity]. apply (bool_decide_unpack _). vm_compute. exact I. }
  split. { split; [repeat constructor|]. apply (bool_decide_unpack _). vm_compute. exact I. }
  repeat split; vm_compute; reflexivity.
Qed.
(** Matrices without rows: the operation has a value, but the pipeline divides by the number of rows, which is undefined. *)
Definition nil_in (i : nat) : val int64 := match i with 0 => M 2 [] | 1 => M 2 [[1; 2]]%Z | _ => Err end.
Definition nil_l : list (node int64) := [mkN 10 (EwBin (aadd ar64)) [0; 0]].
Definition nil_l2 : list (node int64) := [mkN 10 (EwBin (aadd ar64)) [0; 1]].
Theorem C66_empty_refuted : 
  plain nil_l nil_in 0 = Some (Some (2, [])) /\ pipe_len (s_in (build (declared (value_of nil_l nil_in) <$> nil_l))) (value_of nil_l nil_in) = 0 /\ (forall mem, row_mem mem 0 = UB) /\
  plain nil_l2 nil_in 0 = Some (Some (2, [])) /\ pipe_len (s_in (build (declared (value_of nil_l2 nil_in) <$> nil_l2))) (value_of nil_l2 nil_in) = 1 /\ vectorized nil_l2 nil_in [(0, 1)] 0 = Some None.
Proof. repeat split; vm_compute; reflexivity. Qed.

Print Assumptions C66_op.
Print Assumptions C66_pipeline.
Print Assumptions C66_pipelines.
Print Assumptions C66_length.
Print Assumptions C66_scheduled.
Print Assumptions C66_exact64.
Print Assumptions C66_case.
Print Assumptions C66_trans_left_refuted.
Print Assumptions C66_syrk_refuted.
Print Assumptions C66_row_vector_refuted.
Print Assumptions C66_empty_refuted.
