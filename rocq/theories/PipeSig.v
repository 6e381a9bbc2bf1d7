(** C65: a vectorized pipeline computes what the operations it was made from compute, also after pipelines were combined and simplified. *)
From stdpp Require Import base numbers list list_numbers.
From Coq Require Import ZArith Lia.
From Verif Require Import PipeSigModel PipeSigSpec PipeSigProofs.

Section theorems.
  Context {V C : Type} (f : nat -> list V -> V) (part : split -> V -> C -> V) (combine : comb -> nat * nat -> list V -> V).

  (** A new pipeline computes the values of its operations, if they distribute over the chunks as declared; each argument of the body is used once, in order. *)
  Theorem C65_build ops env cs : chained ops -> (forall o, o ∈ ops -> distributes f part combine env cs o) ->
    (forall k o, ops !! k = Some o -> result f part combine (build ops) env cs k = Some (env (w_id o))) /\ defined f part (build ops) env cs /\
    length (s_ret (build ops)) = length ops /\ wired (build ops) /\ proper (build ops).
  Proof.
    intros H1 H2. destruct (build_result f part combine ops env cs H1 H2) as [H3 H4]. destruct (build_wired ops) as (H5 & _ & H6). repeat (split; [done|]). split; [|done]. cbn. by rewrite fmap_length.
  Qed.

  (** The pipeline made of two pipelines has the results of the first one followed by those of the second one. *)
  Theorem C65_merge p q env cs : wired p -> wired q -> apart p q -> proper p -> proper q -> defined f part p env cs -> defined f part q env cs ->
    (forall k, k < length (s_ret p) -> result f part combine (merge p q) env cs k = result f part combine p env cs k) /\
    (forall k, k < length (s_ret q) -> result f part combine (merge p q) env cs (length (s_ret p) + k) = result f part combine q env cs k) /\
    length (s_ret (merge p q)) = length (s_ret p) + length (s_ret q) /\ proper (merge p q) /\ defined f part (merge p q) env cs.
  Proof. apply result_merge. Qed.

  (** Simplification keeps the results that are used, in order, if every input value has one split. *)
  Theorem C65_canon used p p' env cs : one_split p -> proper p -> length used = length (s_ret p) -> defined f part p env cs -> canon used p = Some p' ->
    (forall k, k < length (s_ret p') -> result f part combine p' env cs k = result f part combine p env cs (position used k)) /\
    length (s_ret p') = length (keep used (s_ret p)) /\ proper p' /\ defined f part p' env cs.
  Proof. apply canon_results. Qed.

  (** Everything together: any number of pipelines, made of operations with different names, combined one after the other. *)
  Definition merge_all (opss : list (list wop)) : psig := foldl (fun p ops => merge p (build ops)) (build []) opss.
  Lemma merge_all_ok opss env cs : NoDup (w_id <$> concat opss) -> (forall ops, ops ∈ opss -> chained ops) -> (forall o, o ∈ concat opss -> distributes f part combine env cs o) ->
    let p := merge_all opss in wired p /\ returns_values p /\ proper p /\ defined f part p env cs /\ length (s_ret p) = length (concat opss) /\ (b_id <$> s_body p) = w_id <$> concat opss /\
    forall k o, concat opss !! k = Some o -> result f part combine p env cs k = Some (env (w_id o)).
  Proof.
    assert (forall ops, b_id <$> s_body (build ops) = w_id <$> ops) as Hb.
    { intros ops. cbn. generalize 0. assert (forall l n, b_id <$> bodies ops n l = w_id <$> l) as H; [|by intros; apply H]. induction l as [|o l IH]; intros n; [done|]. cbn. by rewrite IH. }
    induction opss as [|ops opss IH] using rev_ind.
    { intros _ _ _. destruct (build_wired []) as (H1 & H2 & H3). destruct (build_result f part combine [] env cs) as [H4 H5]; [split; [apply NoDup_nil_2|by intros [|? ?]]|by intros o ?%elem_of_nil|]. cbn. repeat (split; [done|]). done. }
    rewrite concat_app. cbn [concat]. rewrite app_nil_r, fmap_app. intros Hn Hc Hd. pose proof Hn as (Hn1 & Hn2 & Hn3)%NoDup_app.
    destruct IH as (I1 & I2 & I3 & I4 & I5 & I6 & I7); [done|intros; apply Hc; rewrite elem_of_app; tauto|intros; apply Hd; rewrite elem_of_app; tauto|].
    unfold merge_all. rewrite foldl_app. cbn [foldl]. fold (merge_all opss). set (p := merge_all opss) in *.
    destruct (build_wired ops) as (W1 & W2 & W3). destruct (build_result f part combine ops env cs) as [R1 R2]; [apply Hc; rewrite elem_of_app, elem_of_list_singleton; tauto|intros; apply Hd; rewrite elem_of_app; tauto|].
    assert (apart p (build ops)) as Hap. { intros o o' Ho Ho' E. apply (Hn2 (b_id o)); [rewrite <- I6; by apply elem_of_list_fmap_1|]. rewrite E, <- Hb. by apply elem_of_list_fmap_1. }
    destruct (merge_wired p (build ops) I1 W1 I2 W2) as [M1 M2]. destruct (result_merge f part combine p (build ops) env cs I1 W1 Hap I3 W3 I4 R2) as (M3 & M4 & M5 & M6 & M7).
    assert (length (s_ret (build ops)) = length ops) as Lb by (cbn; by rewrite fmap_length).
    split; [done|]. split; [done|]. split; [done|]. split; [done|]. split; [rewrite M5, I5, Lb, app_length; done|]. split.
    - rewrite (merge_wired_eq p (build ops) I1 W1). cbn [s_body]. rewrite fmap_app, I6. f_equal. rewrite <- list_fmap_compose. rewrite <- Hb. apply list_fmap_ext. done.
    - intros k o Hk. destruct (decide (k < length (concat opss))) as [L|L].
      + rewrite M3 by lia. apply I7. by rewrite lookup_app_l in Hk by lia.
      + rewrite lookup_app_r in Hk by lia. pose proof (lookup_lt_Some _ _ _ Hk). replace k with (length (s_ret p) + (k - length (concat opss))) by lia. rewrite M4 by lia. by apply R1.
  Qed.
  Theorem C65_all opss env cs : NoDup (w_id <$> concat opss) -> (forall ops, ops ∈ opss -> chained ops) -> (forall o, o ∈ concat opss -> distributes f part combine env cs o) ->
    (forall k o, concat opss !! k = Some o -> result f part combine (merge_all opss) env cs k = Some (env (w_id o))) /\
    (forall used p', one_split (merge_all opss) -> length used = length (concat opss) -> canon used (merge_all opss) = Some p' ->
      forall k o, keep used (concat opss) !! k = Some o -> result f part combine p' env cs k = Some (env (w_id o))).
  Proof.
    intros H1 H2 H3. destruct (merge_all_ok opss env cs H1 H2 H3) as (I1 & I2 & I3 & I4 & I5 & I6 & I7). split; [done|]. intros used p' Hs Hu Hc k o Hk.
    destruct (canon_results f part combine used _ p' env cs Hs I3 ltac:(congruence) I4 Hc) as (R1 & R2 & R3 & R4).
    pose proof (lookup_lt_Some _ _ _ Hk) as Hl. rewrite R1. 2: { rewrite R2. rewrite (keep_length used _ (concat opss)) by done. done. }
    apply I7. rewrite <- keep_lookup; done.
  Qed.
End theorems.

(** When there is nothing more to simplify, no input occurs twice. *)
Theorem C65_canon_done used p : one_split p -> canon used p = None -> NoDup (s_in p).
Proof. apply canon_none. Qed.

(** * A concrete case: matrices with one column; a + b and its sum; chunks of one and two rows *)
Definition xf (i : nat) (l : list (list Z)) : list Z :=
  match i, l with
  | 10, [x; y] => zip_with Z.add x y
  | 11, [x] => [foldr Z.add 0%Z x]
  | 12, [x; b] => (fun z => (z * foldr Z.add 0 b)%Z) <$> x
  | 13, [x; y] => zip_with Z.add x y
  | _, _ => []
  end.
Definition xpart (s : split) (x : list Z) (c : nat * nat) : list Z := match s with Rows => take (snd c) (drop (fst c) x) | Whole => x end.
Definition xcombine (c : comb) (_ : nat * nat) (l : list (list Z)) : list Z := match c with CAdd => [foldr Z.add 0%Z (concat l)] | _ => concat l end.
Definition x_ops1 := [mkW 10 [(0, Rows); (1, Rows)] CRows (3, 1); mkW 11 [(10, Rows)] CAdd (1, 1)].
Definition x_ops2 := [mkW 12 [(0, Rows); (2, Whole)] CRows (3, 1)].
Definition x_env (i : nat) : list Z :=
  match i with 0 => [1; 2; 3]%Z | 1 => [4; 5; 6]%Z | 2 => [7; 8]%Z | 10 => [5; 7; 9]%Z | 11 => [21]%Z | 12 => [15; 30; 45]%Z | _ => [] end.
Definition x_cs := [(0, 1); (1, 2)].
Lemma chained2 o1 o2 : NoDup [w_id o1; w_id o2] -> Forall (fun e => fst e ∉ [w_id o1; w_id o2]) (w_args o1) -> Forall (fun e => fst e <> w_id o2 /\ (fst e = w_id o1 -> snd e = Rows)) (w_args o2) -> w_comb o1 = CRows -> chained [o1; o2].
Proof.
  intros Hn H1 H2 Hc. rewrite Forall_forall in H1, H2. split; [done|]. intros l1 o l2 a s E Ha Hin. destruct l1 as [|x [|y l1]]; cbn in E.
  - injection E as <- _. exfalso. by apply (H1 (a, s)).
  - injection E as <- <- _. cbn in Hin. destruct (H2 (a, s) Ha) as [H3 H4]. cbn in *. apply elem_of_cons in Hin as [->|Hin]; [|apply elem_of_list_singleton in Hin as ->; done]. split; [by apply H4|]. exists o1. split; [left|done].
  - injection E as _ _ E. destruct l1; done.
Qed.
Lemma chained1 o : Forall (fun e => fst e <> w_id o) (w_args o) -> chained [o].
Proof.
  intros H. rewrite Forall_forall in H. split; [apply NoDup_singleton|]. intros [|? l1] o' l2 a s E Ha Hin; cbn in E; injection E as <-; [|destruct l1; done]. exfalso. apply (H (a, s) Ha). by apply elem_of_list_singleton in Hin.
Qed.
Ltac dec := apply (bool_decide_unpack _); vm_compute; exact I.
Ltac each := intros o Ho; repeat (apply elem_of_cons in Ho as [->|Ho]; [split; [reflexivity|]; try (intros _ c Hc; repeat (apply elem_of_cons in Hc as [->|Hc]; [reflexivity|]); by apply elem_of_nil in Hc); done|]); by apply elem_of_nil in Ho.
Theorem C65_ex : NoDup (w_id <$> concat [x_ops1; x_ops2]) /\ (forall ops, ops ∈ [x_ops1; x_ops2] -> chained ops) /\ (forall o, o ∈ concat [x_ops1; x_ops2] -> distributes xf xpart xcombine x_env x_cs o) /\
  one_split (merge_all [x_ops1; x_ops2]) /\
  canon [false; true; true] (merge_all [x_ops1; x_ops2]) =
    Some (mkP [(0, Rows); (1, Rows); (2, Whole)] [mkB 10 [Arg 0; Arg 1]; mkB 11 [Val 10]; mkB 12 [Arg 0; Arg 2]] [Val 11; Val 12] [CAdd; CRows] [(1, 1); (3, 1)]) /\
  canon [true; true] (mkP [(0, Rows); (1, Rows); (2, Whole)] [mkB 10 [Arg 0; Arg 1]; mkB 11 [Val 10]; mkB 12 [Arg 0; Arg 2]] [Val 11; Val 12] [CAdd; CRows] [(1, 1); (3, 1)]) = None.
Proof.
  split; [dec|]. split; [|split; [each|split; [|by vm_compute]]].
  - intros ops Ho. apply elem_of_cons in Ho as [->|Ho]; [apply chained2; [dec..|done]|]. apply elem_of_list_singleton in Ho as ->. apply chained1. dec.
  - intros v s s' H1 H2. cut (Forall (fun e => Forall (fun e' => fst e = fst e' -> snd e = snd e') (s_in (merge_all [x_ops1; x_ops2]))) (s_in (merge_all [x_ops1; x_ops2]))); [|dec].
    intros H. rewrite Forall_forall in H. specialize (H _ H1). rewrite Forall_forall in H. by apply (H _ H2).
Qed.

(** * Where it fails *)
(** (A + A) * B + B, where the product needs all of B and the last sum only its rows (such as a matrix product): removing the second A makes the
    splits that are looked up wrong, and the rows of B are replaced by all of B. *)
Definition r_ops := [mkW 10 [(0, Rows); (0, Rows)] CRows (2, 1); mkW 12 [(10, Rows); (2, Whole)] CRows (2, 1); mkW 13 [(12, Rows); (2, Rows)] CRows (2, 1)].
Definition r_env (i : nat) : list Z := match i with 0 => [1; 2]%Z | 2 => [7; 8]%Z | 10 => [2; 4]%Z | 12 => [30; 60]%Z | 13 => [37; 68]%Z | _ => [] end.
Theorem C65_canon_refuted : (forall o, o ∈ r_ops -> distributes xf xpart xcombine r_env [(0, 1); (1, 1)] o) /\
  result xf xpart xcombine (build r_ops) r_env [(0, 1); (1, 1)] 2 = Some [37; 68]%Z /\
  exists p', canon [true; true; true] (build r_ops) = Some p' /\ s_in p' = [(0, Rows); (2, Whole)] /\ result xf xpart xcombine p' r_env [(0, 1); (1, 1)] 2 = Some [37; 67]%Z.
Proof. split; [each|]. split; [by vm_compute|]. eexists. split; [vm_compute; reflexivity|]. by split; vm_compute. Qed.
(** One simplification may leave duplicates; it takes another one. *)
Theorem C65_canon_once_refuted : let p := mkP [(0, Rows); (0, Rows); (2, Whole); (2, Whole)] [mkB 10 [Arg 0; Arg 1; Arg 2; Arg 3]] [Val 10] [CRows] [(1, 1)] in
  one_split p /\ exists p' p'', canon [true] p = Some p' /\ s_in p' = [(0, Rows); (2, Whole); (2, Whole)] /\ canon [true] p' = Some p'' /\ s_in p'' = [(0, Rows); (2, Whole)].
Proof.
  split; [|by do 2 eexists; split; [vm_compute; reflexivity|]; split; [reflexivity|]; split; [vm_compute; reflexivity|]].
  intros v s s' H1 H2. cut (Forall (fun e => Forall (fun e' => fst e = fst e' -> snd e = snd e') [(0, Rows); (0, Rows); (2, Whole); (2, Whole)]) [(0, Rows); (0, Rows); (2, Whole); (2, Whole)]); [|dec].
  intros H. rewrite Forall_forall in H. specialize (H _ H1). rewrite Forall_forall in H. by apply (H _ H2).
Qed.
(** Combining pipelines after they were simplified: X + X with one argument, then the sum of Y: the argument is used as two. *)
Theorem C65_merge_unwired_refuted : let p := mkP [(0, Rows)] [mkB 10 [Arg 0; Arg 0]] [Val 10] [CRows] [(3, 1)] in let q := mkP [(1, Rows)] [mkB 11 [Arg 0]] [Val 11] [CAdd] [(1, 1)] in
  canon [true] (build [mkW 10 [(0, Rows); (0, Rows)] CRows (3, 1)]) = Some p /\ wired q /\ apart p q /\ proper p /\ proper q /\
  result xf xpart xcombine p x_env x_cs 0 = Some [2; 4; 6]%Z /\ result xf xpart xcombine (merge p q) x_env x_cs 0 <> Some [2; 4; 6]%Z.
Proof.
  intros p q. split; [by vm_compute|]. split; [by vm_compute|]. split; [|split; [done|split; [done|split; [by vm_compute|by vm_compute]]]]. intros o o' ->%elem_of_list_singleton ->%elem_of_list_singleton. done.
Qed.

Print Assumptions C65_build.
Print Assumptions C65_merge.
Print Assumptions C65_canon.
Print Assumptions C65_all.
Print Assumptions C65_canon_done.
Print Assumptions C65_canon_refuted.
Print Assumptions C65_canon_once_refuted.
Print Assumptions C65_merge_unwired_refuted.
