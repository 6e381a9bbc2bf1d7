(** Property C20: the symbol table of the parser implements lexical scoping. *)
From stdpp Require Import base numbers strings gmap list.
From Coq Require Import Lia.
From Verif Require Import CppBase UtilModel.

Section c20.
Context {I : Type}.

(** What a client can do. *)
Inductive sop := Put (sym : string) (v : I) | PutTab (tab : table I) | Push | Pop | Extract.

(** ** Specification, on histories given newest first. *)
(** How many scopes are open: one at the beginning; putting a table when none is open opens one. *)
Fixpoint depth (rh : list sop) : nat :=
  match rh with
  | [] => 1
  | Push :: rh' => depth rh' + 1
  | (Pop | Extract) :: rh' => depth rh' - 1
  | PutTab _ :: rh' => if decide (depth rh' = 0) then 1 else depth rh'
  | Put _ _ :: rh' => depth rh'
  end.
(** The most recent binding of a symbol that was not made in a scope that was closed since; [skip]: the number of scopes around
    the current point of the history that are to be ignored. *)
Fixpoint binding (rh : list sop) (sym : string) (skip : nat) : option I :=
  match rh with
  | [] => None
  | Put s v :: rh' => if decide (skip = 0 /\ s = sym) then Some v else binding rh' sym skip
  | PutTab tab :: rh' =>
      match (if decide (skip = 0) then tab !! sym else None) with
      | Some v => Some v
      | None => binding rh' sym (if decide (depth rh' = 0) then skip - 1 else skip)
      end
  | Push :: rh' => binding rh' sym (skip - 1)
  | (Pop | Extract) :: rh' => binding rh' sym (skip + 1)
  end.
(** The same, but only considering bindings made in the scope itself. *)
Fixpoint own_binding (rh : list sop) (sym : string) (skip : nat) : option I :=
  match rh with
  | [] => None
  | Put s v :: rh' => if decide (skip = 0 /\ s = sym) then Some v else own_binding rh' sym skip
  | PutTab tab :: rh' =>
      if decide (depth rh' = 0) then (if decide (skip = 0) then tab !! sym else own_binding rh' sym (skip - 1))
      else match (if decide (skip = 0) then tab !! sym else None) with
           | Some v => Some v
           | None => own_binding rh' sym skip
           end
  | Push :: rh' => if decide (skip = 0) then None else own_binding rh' sym (skip - 1)
  | (Pop | Extract) :: rh' => own_binding rh' sym (skip + 1)
  end.
(** Clients close and bind only when a scope is open. *)
Fixpoint proper (rh : list sop) : Prop :=
  match rh with
  | [] => True
  | e :: rh' => proper rh' /\ match e with Put _ _ | Pop | Extract => 0 < depth rh' | _ => True end
  end.

(** ** The class, running a history (newest first). ScopedSymbolTable.h 104: the constructor pushes one scope. *)
Definition sst_step (e : sop) (ss : scopes I) : outcome (scopes I) :=
  match e with
  | Put s v => sst_put ss s v
  | PutTab tab => sst_put_tab ss tab
  | Push => Ok (sst_push ss)
  | Pop => let* r := sst_pop ss in Ok (fst r)
  | Extract => let* r := sst_extract ss in Ok (fst r)
  end.
Fixpoint sst_run (rh : list sop) : outcome (scopes I) :=
  match rh with [] => Ok (sst_push []) | e :: rh' => let* ss := sst_run rh' in sst_step e ss end.

(** ** Proofs *)
Fixpoint lookr (rs : list (table I)) (sym : string) : option I :=
  match rs with [] => None | t :: rs' => match t !! sym with Some v => Some v | None => lookr rs' sym end end.

Lemma rd_app_l {A} (l1 l2 : list A) i : i < length l1 -> rd (l1 ++ l2) i = rd l1 i.
Proof. intros H. unfold rd. by rewrite lookup_app_l. Qed.
Lemma rd_snoc {A} (l : list A) x : rd (l ++ [x]) (length l) = Ok x.
Proof. unfold rd. by rewrite list_lookup_middle. Qed.
Lemma get_loop_app ss extra sym : sst_get_loop (ss ++ extra) sym (length ss) = match lookr (reverse ss) sym with Some v => Ok v | None => Throw end.
Proof.
  revert extra. induction ss as [|t ss IH] using rev_ind; intros extra; [done|].
  rewrite app_length, Nat.add_comm. cbn [sst_get_loop length plus].
  rewrite <- app_assoc. cbn [app]. unfold rd. rewrite list_lookup_middle by done. cbn [obind].
  rewrite reverse_app. cbn [lookr]. change (reverse [t]) with [t]. cbn [app lookr]. destruct (t !! sym); [done|]. apply IH.
Qed.
Lemma has_loop_app ss extra sym : sst_has_loop (ss ++ extra) sym (length ss) = Ok (bool_decide (is_Some (lookr (reverse ss) sym))).
Proof.
  revert extra. induction ss as [|t ss IH] using rev_ind; intros extra.
  { done. }
  rewrite app_length, Nat.add_comm. cbn [sst_has_loop length plus].
  rewrite <- app_assoc. cbn [app]. unfold rd. rewrite list_lookup_middle by done. cbn [obind].
  rewrite reverse_app. change (reverse [t]) with [t]. cbn [app lookr].
  destruct (decide (is_Some (t !! sym))) as [[v Hv]|Hn].
  - rewrite Hv. by rewrite bool_decide_eq_true_2.
  - destruct (t !! sym) eqn:E; [by exfalso; apply Hn|]. apply IH.
Qed.
Lemma get_look ss sym : sst_get ss sym = match lookr (reverse ss) sym with Some v => Ok v | None => Throw end.
Proof. unfold sst_get. rewrite <- (app_nil_r ss) at 1. apply get_loop_app. Qed.

Lemma put_snoc (ss : scopes I) t s v : sst_put (ss ++ [t]) s v = Ok (ss ++ [<[s := v]> t]).
Proof.
  unfold sst_put. rewrite last_snoc. f_equal. rewrite app_length. simpl. replace (length ss + 1 - 1) with (length ss + 0) by lia.
  rewrite Nat.add_0_r. by induction ss as [|x ss IH]; [|simpl; f_equal].
Qed.
Lemma put_list (l : list (string * I)) : NoDup l.*1 -> forall (ss : scopes I) t,
  exists t', foldl (fun acc kv => let* ss := acc in sst_put ss (fst kv) (snd kv)) (Ok (ss ++ [t])) l = Ok (ss ++ [t']) /\
    forall s, t' !! s = match (list_to_map l : table I) !! s with Some v => Some v | None => t !! s end.
Proof.
  induction l as [|[s v] l IH]; intros Hnd ss t; [exists t; split; [done|]; intros s; change (list_to_map []) with (∅ : table I); by rewrite lookup_empty|].
  cbn [foldl]. cbn [obind fst snd]. rewrite put_snoc. apply NoDup_cons in Hnd as [Hni Hnd].
  destruct (IH Hnd ss (<[s := v]> t)) as (t' & E & H). exists t'. split; [exact E|]. intros s'. rewrite H.
  change (list_to_map ((s, v) :: l)) with (<[s := v]> (list_to_map l : table I)). destruct (decide (s = s')) as [->|Hne].
  - rewrite lookup_insert. rewrite not_elem_of_list_to_map_1 by done. by rewrite lookup_insert.
  - rewrite !lookup_insert_ne by done. done.
Qed.
Lemma put_tab_snoc (ss : scopes I) t tab : exists t', sst_put_tab (ss ++ [t]) tab = Ok (ss ++ [t']) /\
  forall s, t' !! s = match tab !! s with Some v => Some v | None => t !! s end.
Proof.
  unfold sst_put_tab. rewrite decide_False by (rewrite app_length; simpl; lia).
  destruct (put_list (map_to_list tab) (NoDup_fst_map_to_list tab) ss t) as (t' & E & H). exists t'. split; [done|].
  intros s. rewrite H. by rewrite list_to_map_to_list.
Qed.

Lemma pop_list (b : string -> bool) (hs : string -> outcome bool) (l : list (string * I)) : (forall s, hs s = Ok (b s)) -> NoDup l.*1 -> forall m0,
  exists m', foldl (fun acc kv => let* ov := acc in let* h := hs (fst kv) in Ok (if (h : bool) then <[fst kv := snd kv]> ov else ov)) (Ok m0) l = Ok m' /\
    forall s, m' !! s = match (if b s then (list_to_map l : table I) !! s else None) with Some v => Some v | None => (m0 : table I) !! s end.
Proof.
  intros Hb. induction l as [|[s v] l IH]; intros Hnd m0.
  { exists m0. split; [done|]. intros s. change (list_to_map []) with (∅ : table I). rewrite lookup_empty. by destruct (b s). }
  cbn [foldl]. cbn [obind fst snd]. rewrite Hb. cbn [obind]. apply NoDup_cons in Hnd as [Hni Hnd].
  destruct (IH Hnd (if b s then <[s := v]> m0 else m0)) as (m' & E & H). exists m'. split; [exact E|]. intros s'. rewrite H.
  change (list_to_map ((s, v) :: l)) with (<[s := v]> (list_to_map l : table I)). destruct (decide (s = s')) as [->|Hne].
  - destruct (b s') eqn:Eb; [|done]. rewrite lookup_insert. rewrite not_elem_of_list_to_map_1 by done. by rewrite lookup_insert.
  - rewrite lookup_insert_ne by done. destruct (b s), (b s'); try done; by rewrite lookup_insert_ne by done.
Qed.
Lemma pop_snoc (ss : scopes I) t : exists ov, sst_pop (ss ++ [t]) = Ok (ss, ov) /\
  forall s, ov !! s = if decide (is_Some (lookr (reverse ss) s)) then t !! s else None.
Proof.
  unfold sst_pop. rewrite last_snoc.
  destruct (pop_list (fun s => bool_decide (is_Some (lookr (reverse ss) s))) (fun s => sst_has (ss ++ [t]) s 1) (map_to_list t)) with (m0 := ∅ : table I) as (ov & E & H).
  - intros s. unfold sst_has. rewrite app_length. simpl. replace (length ss + 1 - 1) with (length ss) by lia. apply has_loop_app.
  - apply NoDup_fst_map_to_list.
  - exists ov. rewrite E. cbn [obind]. split.
    + f_equal. f_equal. rewrite app_length. simpl. replace (length ss + 1 - 1) with (length ss) by lia. by rewrite take_app.
    + intros s. rewrite H, lookup_empty, list_to_map_to_list. destruct (decide (is_Some (lookr (reverse ss) s))) as [Hs|Hs].
      * rewrite bool_decide_eq_true_2 by done. by destruct (t !! s).
      * by rewrite bool_decide_eq_false_2 by done.
Qed.

Definition shows (rs : list (table I)) (rh : list sop) : Prop :=
  length rs = depth rh /\ (forall k sym, binding rh sym k = lookr (drop k rs) sym) /\
  (forall k sym t, rs !! k = Some t -> own_binding rh sym k = t !! sym).

Lemma run_shows rh : proper rh -> exists ss, sst_run rh = Ok ss /\ shows (reverse ss) rh.
Proof.
  induction rh as [|e rh IH].
  { intros _. exists [∅]. split; [done|]. split; [done|]. split.
    - intros k sym. destruct k as [|k]; [by cbn; rewrite lookup_empty|]. cbn. by rewrite drop_nil.
    - intros [|k] sym t Ht; [|by destruct k]. injection Ht as <-. cbn. by rewrite lookup_empty. }
  intros [Hp He]. destruct (IH Hp) as (ss & Er & Hl & Hb & Ho). cbn [sst_run]. rewrite Er. cbn [obind]. rewrite reverse_length in Hl.
  assert (Hsn : 0 < depth rh -> exists ss0 t0, ss = ss0 ++ [t0]).
  { rewrite <- Hl. destruct ss as [|t0 ss0 _] using rev_ind; [simpl; lia|]. by exists ss0, t0. }
  destruct e as [s v|tab| | |].
  - destruct (Hsn He) as (ss0 & t0 & ->). exists (ss0 ++ [<[s := v]> t0]). split; [apply put_snoc|].
    rewrite reverse_snoc in Hb, Ho |- *. rewrite app_length in Hl. simpl in Hl. split; [cbn; rewrite reverse_length; lia|]. split.
    + intros k sym. cbn [binding]. rewrite Hb. destruct k as [|k]; cbn [drop lookr].
      * destruct (decide (s = sym)) as [->|Hne].
        -- rewrite decide_True by done. by rewrite lookup_insert.
        -- rewrite decide_False by naive_solver. by rewrite lookup_insert_ne.
      * by rewrite decide_False by (intros [? ?]; lia).
    + intros k sym t Ht. cbn [own_binding]. destruct k as [|k]; cbn in Ht.
      * injection Ht as <-. rewrite (Ho 0 sym t0) by done. destruct (decide (s = sym)) as [->|Hne].
        -- rewrite decide_True by done. by rewrite lookup_insert.
        -- rewrite decide_False by naive_solver. by rewrite lookup_insert_ne.
      * rewrite decide_False by (intros [? ?]; lia). by apply Ho.
  - cbn [sst_step]. destruct (decide (depth rh = 0)) as [Hd|Hd].
    + assert (ss = []) as -> by (apply length_zero_iff_nil; lia). exists [tab]. split; [done|]. split; [cbn [depth]; by rewrite decide_True by done|]. split.
      * intros k sym. cbn [binding]. rewrite (decide_True (P := depth rh = 0)) by done. rewrite Hb. change (reverse (@nil (table I))) with (@nil (table I)). rewrite drop_nil. cbn [lookr].
        destruct (decide (k = 0)) as [->|Hk]; [cbn; by destruct (tab !! sym)|]. destruct k; [done|]. cbn. by rewrite drop_nil.
      * intros k sym t Ht. cbn [own_binding]. rewrite (decide_True (P := depth rh = 0)) by done. destruct k as [|k]; [|by destruct k]. by injection Ht as <-.
    + destruct (Hsn ltac:(lia)) as (ss0 & t0 & ->). destruct (put_tab_snoc ss0 t0 tab) as (t' & E & H). exists (ss0 ++ [t']). split; [exact E|].
      rewrite reverse_snoc in Hb, Ho |- *. rewrite app_length in Hl. simpl in Hl.
      split; [cbn [depth]; rewrite decide_False by done; cbn; rewrite reverse_length; lia|]. split.
      * intros k sym. cbn [binding]. rewrite (decide_False (P := depth rh = 0)) by done. rewrite Hb. destruct k as [|k]; cbn [drop lookr].
        -- rewrite (decide_True (P := 0 = 0)) by done. rewrite H. by destruct (tab !! sym).
        -- by rewrite (decide_False (P := S k = 0)) by lia.
      * intros k sym t Ht. cbn [own_binding]. rewrite (decide_False (P := depth rh = 0)) by done. destruct k as [|k]; cbn in Ht.
        -- injection Ht as <-. rewrite (decide_True (P := 0 = 0)) by done. rewrite (Ho 0 sym t0) by done. rewrite H. by destruct (tab !! sym).
        -- rewrite (decide_False (P := S k = 0)) by lia. by apply Ho.
  - exists (ss ++ [∅]). split; [done|]. rewrite reverse_snoc. split; [cbn; rewrite reverse_length; lia|]. split.
    + intros k sym. cbn [binding]. rewrite Hb. destruct k as [|k]; cbn [drop lookr minus]; [by rewrite lookup_empty|]. by rewrite Nat.sub_0_r.
    + intros k sym t Ht. cbn [own_binding]. destruct k as [|k]; cbn in Ht.
      * injection Ht as <-. by rewrite lookup_empty.
      * rewrite decide_False by lia. apply Ho. by rewrite Nat.sub_succ, Nat.sub_0_r.
  - destruct (Hsn He) as (ss0 & t0 & ->). destruct (pop_snoc ss0 t0) as (ov & E & H). exists ss0. cbn [sst_step]. rewrite E. split; [done|].
    rewrite reverse_snoc in Hb, Ho. rewrite app_length in Hl. simpl in Hl. split; [cbn; rewrite reverse_length; lia|]. split.
    + intros k sym. cbn [binding]. by rewrite Hb, Nat.add_comm.
    + intros k sym t Ht. cbn [own_binding]. apply Ho. by rewrite Nat.add_comm.
  - destruct (Hsn He) as (ss0 & t0 & ->). exists ss0. cbn [sst_step]. unfold sst_extract. rewrite last_snoc. cbn [obind fst]. split.
    { f_equal. rewrite app_length. simpl. replace (length ss0 + 1 - 1) with (length ss0) by lia. by rewrite take_app. }
    rewrite reverse_snoc in Hb, Ho. rewrite app_length in Hl. simpl in Hl. split; [cbn; rewrite reverse_length; lia|]. split.
    + intros k sym. cbn [binding]. by rewrite Hb, Nat.add_comm.
    + intros k sym t Ht. cbn [own_binding]. apply Ho. by rewrite Nat.add_comm.
Qed.

(** C20: after every proper history, looking a symbol up yields the most recent binding of it that was not made in a scope closed
    since, and throws if there is none; [has] says which. *)
Theorem C20_lookup rh : proper rh -> exists ss, sst_run rh = Ok ss /\
  forall sym, sst_get ss sym = match binding rh sym 0 with Some v => Ok v | None => Throw end /\
              sst_has ss sym 0 = Ok (bool_decide (is_Some (binding rh sym 0))).
Proof.
  intros Hp. destruct (run_shows rh Hp) as (ss & Er & Hl & Hb & Ho). exists ss. split; [done|]. intros sym.
  rewrite (Hb 0 sym), drop_0. split; [apply get_look|]. unfold sst_has. rewrite Nat.sub_0_r. rewrite <- (app_nil_r ss) at 1. apply has_loop_app.
Qed.
(** Looking up with an extra table in front. *)
Theorem C20_lookup_with_table rh tab : proper rh -> exists ss, sst_run rh = Ok ss /\
  forall sym, sst_get_tab ss sym tab = match tab !! sym with Some v => Ok v | None =>
    match binding rh sym 0 with Some v => Ok v | None => Throw end end.
Proof.
  intros Hp. destruct (C20_lookup rh Hp) as (ss & E & H). exists ss. split; [done|]. intros sym. unfold sst_get_tab.
  destruct (tab !! sym); [done|]. apply H.
Qed.

(** Histories inside one scope: [balanced inner], scopes opened in it are closed in it, and never more. *)
Fixpoint net (rh : list sop) : option nat :=
  match rh with
  | [] => Some 0
  | Push :: rh' => n ← net rh'; Some (S n)
  | (Pop | Extract) :: rh' => n ← net rh'; match n with 0 => None | S n' => Some n' end
  | _ :: rh' => net rh'
  end.
Lemma depth_net inner rh n : net inner = Some n -> 0 < depth rh -> depth (inner ++ rh) = depth rh + n /\ 0 < depth (inner ++ rh).
Proof.
  revert n. induction inner as [|e inner IH]; intros n Hn Hd; [simpl in *; injection Hn as <-; lia|].
  destruct e; cbn [net app depth] in *.
  - by apply IH.
  - destruct (IH n Hn Hd) as [H1 H2]. rewrite decide_False by lia. lia.
  - destruct (net inner) as [n'|] eqn:E; [|done]. injection Hn as <-. destruct (IH n' eq_refl Hd). lia.
  - destruct (net inner) as [[|n']|] eqn:E; [done| |done]. injection Hn as <-. destruct (IH _ eq_refl Hd). lia.
  - destruct (net inner) as [[|n']|] eqn:E; [done| |done]. injection Hn as <-. destruct (IH _ eq_refl Hd). lia.
Qed.
Lemma binding_net inner rh sym n k : net inner = Some n -> 0 < depth rh -> binding (inner ++ rh) sym (S (n + k)) = binding rh sym (S k).
Proof.
  revert n k. induction inner as [|e inner IH]; intros n k Hn Hd; [simpl in *; by injection Hn as <-|].
  destruct e as [s v|tab| | |]; cbn [net app binding] in *.
  - rewrite decide_False by (intros [? ?]; lia). by apply IH.
  - rewrite (decide_False (P := S (n + k) = 0)) by lia. destruct (depth_net inner rh n Hn Hd). rewrite decide_False by lia. by apply IH.
  - destruct (net inner) as [n'|] eqn:E; [|done]. injection Hn as <-. cbn [minus plus]. by apply IH.
  - destruct (net inner) as [[|n']|] eqn:E; [done| |done]. injection Hn as <-. replace (S (n' + k) + 1) with (S (S n' + k)) by lia. by apply IH.
  - destruct (net inner) as [[|n']|] eqn:E; [done| |done]. injection Hn as <-. replace (S (n' + k) + 1) with (S (S n' + k)) by lia. by apply IH.
Qed.

(** C20: leaving a scope undoes exactly what happened in it: whatever was done inside, every symbol is looked up as before the
    scope was opened. (Both for popScope and for extractScope; [inner] is what was done inside the scope, newest first.) *)
Theorem C20_leaving_restores inner rh close : (close = Pop \/ close = Extract) -> net inner = Some 0 -> 0 < depth rh ->
  proper (close :: inner ++ Push :: rh) ->
  exists ss ss', sst_run rh = Ok ss /\ sst_run (close :: inner ++ Push :: rh) = Ok ss' /\ forall sym, sst_get ss' sym = sst_get ss sym.
Proof.
  intros Hc Hn Hd Hp. assert (Hp0 : proper rh).
  { destruct Hp as [Hp _]. clear Hn. induction inner as [|e inner IH]; [by destruct Hp|]. destruct Hp as [Hp _]. by apply IH. }
  destruct (C20_lookup rh Hp0) as (ss & E & H). destruct (C20_lookup _ Hp) as (ss' & E' & H'). exists ss, ss'. split; [done|]. split; [done|].
  intros sym. destruct (H sym) as [-> _]. destruct (H' sym) as [-> _].
  assert (binding (close :: inner ++ Push :: rh) sym 0 = binding (inner ++ Push :: rh) sym 1) as -> by (destruct Hc as [-> | ->]; done).
  pose proof (binding_net inner (Push :: rh) sym 0 0 Hn) as Hb. cbn [plus] in Hb. rewrite Hb by (cbn [depth]; lia). done.
Qed.

(** C20: popScope returns exactly the bindings made in the scope of symbols that are bound outside; extractScope all of them. *)
Theorem C20_popScope_result rh : proper (Pop :: rh) -> exists ss ss' ov, sst_run rh = Ok ss /\ sst_pop ss = Ok (ss', ov) /\
  forall sym v, ov !! sym = Some v <-> own_binding rh sym 0 = Some v /\ is_Some (binding (Pop :: rh) sym 0).
Proof.
  intros [Hp He]. destruct (run_shows rh Hp) as (ss & Er & Hl & Hb & Ho). rewrite reverse_length in Hl.
  destruct ss as [|t0 ss0 _] using rev_ind; [simpl in Hl; lia|]. destruct (pop_snoc ss0 t0) as (ov & E & H).
  exists (ss0 ++ [t0]), ss0, ov. split; [done|]. split; [done|]. rewrite reverse_snoc in Hb, Ho. intros sym v. rewrite H.
  cbn [binding]. rewrite (Ho 0 sym t0) by done. rewrite Hb. cbn [plus drop].
  destruct (decide (is_Some (lookr (reverse ss0) sym))); naive_solver.
Qed.
Theorem C20_extractScope_result rh : proper (Extract :: rh) -> exists ss ss' cur, sst_run rh = Ok ss /\ sst_extract ss = Ok (ss', cur) /\
  forall sym, cur !! sym = own_binding rh sym 0.
Proof.
  intros [Hp He]. destruct (run_shows rh Hp) as (ss & Er & Hl & Hb & Ho). rewrite reverse_length in Hl.
  destruct ss as [|t0 ss0 _] using rev_ind; [simpl in Hl; lia|].
  eexists (ss0 ++ [t0]), _, t0. split; [done|]. split; [unfold sst_extract; by rewrite last_snoc|]. rewrite reverse_snoc in Ho. intros sym.
  by rewrite (Ho 0 sym t0).
Qed.

(** C20: a block statement (DaphneDSLVisitor.cpp 359-363: pushScope, the statements, put(popScope())). Afterwards a symbol that was
    bound before the block has the binding it had at the end of the block; every other symbol is unbound again. *)
Theorem C20_block inner rh ov : net inner = Some 0 -> 0 < depth rh -> proper (Pop :: inner ++ Push :: rh) ->
  (exists ss ss', sst_run (inner ++ Push :: rh) = Ok ss /\ sst_pop ss = Ok (ss', ov)) ->
  exists ssin ss, sst_run (inner ++ Push :: rh) = Ok ssin /\ sst_run (PutTab ov :: Pop :: inner ++ Push :: rh) = Ok ss /\
    forall sym, sst_get ss sym = if decide (is_Some (binding rh sym 0)) then sst_get ssin sym else Throw.
Proof.
  intros Hn Hd Hp (s1 & s2 & E1 & E2). destruct (C20_popScope_result _ Hp) as (s1' & s2' & ov' & E1' & E2' & Hov).
  rewrite E1 in E1'. injection E1' as <-. rewrite E2 in E2'. injection E2' as <- <-.
  destruct (C20_lookup (inner ++ Push :: rh)) as (ssin & Ei & Hi); [by destruct Hp|]. rewrite E1 in Ei. injection Ei as <-.
  destruct (C20_lookup (PutTab ov :: Pop :: inner ++ Push :: rh)) as (ss & Es & Hs); [by split|].
  exists s1, ss. split; [done|]. split; [done|]. intros sym. destruct (Hs sym) as [-> _]. destruct (Hi sym) as [-> _].
  destruct (depth_net inner (Push :: rh) 0 Hn) as [Hd1 _]; [cbn [depth]; lia|]. cbn [depth] in Hd1.
  assert (Hout : binding (Pop :: inner ++ Push :: rh) sym 0 = binding rh sym 0).
  { pose proof (binding_net inner (Push :: rh) sym 0 0 Hn) as Hb. cbn [plus] in Hb. cbn [binding plus]. rewrite Hb by (cbn [depth]; lia). done. }
  assert (Hpd : depth (Pop :: inner ++ Push :: rh) = depth rh) by (cbn [depth]; lia).
  cbn [binding] in Hout. cbn [binding depth]. cbn [depth] in Hpd. rewrite (decide_True (P := 0 = 0)) by done.
  rewrite (decide_False (P := depth (inner ++ Push :: rh) - 1 = 0)) by lia. rewrite Hout.
  destruct (run_shows (inner ++ Push :: rh)) as (ss1 & Er1 & Hl1 & Hb1 & Ho1); [by destruct Hp|]. rewrite E1 in Er1. injection Er1 as <-.
  rewrite reverse_length in Hl1. destruct s1 as [|t0 ss0 _] using rev_ind; [simpl in Hl1; lia|]. rewrite reverse_snoc in Hb1, Ho1.
  specialize (Hov sym). cbn [binding] in Hov. rewrite Hout in Hov. pose proof (Hb1 0 sym) as Hb0. pose proof (Hb1 1 sym) as Hb1'. cbn [drop lookr] in Hb0, Hb1'.
  rewrite (Ho1 0 sym t0) in Hov by done. rewrite Hb0. cbn [plus] in Hout. rewrite Hout in Hb1'. change (drop 0 (reverse ss0)) with (reverse ss0) in Hb1'. rewrite <- Hb1'.
  destruct (ov !! sym) as [v|] eqn:Eov.
  - destruct (proj1 (Hov v) eq_refl) as [Hv Hs']. rewrite Hv. by rewrite decide_True.
  - destruct (decide (is_Some (binding rh sym 0))) as [[v Hv]|Hv].
    + rewrite Hv. destruct (t0 !! sym) as [w|] eqn:Ew; [|done]. exfalso. assert (None = Some w) by (apply Hov; split; [done|by rewrite Hv]). done.
    + destruct (binding rh sym 0); [by exfalso; apply Hv|done].
Qed.
End c20.

(** Non-trivial histories meeting the hypotheses (newest first). *)
Example C20_example :
  let rh := [Put "a" 1; Put "b" 2]%string in
  let inner := [Put "c" 9; Pop; Put "b" 8; Push; Put "a" 7]%string in
  net inner = Some 0 /\ 0 < depth rh /\ proper (Pop :: inner ++ Push :: rh) /\
  binding (inner ++ Push :: rh) "a" 0 = Some 7 /\ binding (inner ++ Push :: rh) "b" 0 = Some 2 /\
  binding (Pop :: inner ++ Push :: rh) "a" 0 = Some 1 /\ binding (Pop :: inner ++ Push :: rh) "c" 0 = None.
Proof. cbn. repeat split; lia. Qed.

(** getSymbol inverts [get] only as long as the symbol found is not shadowed: the value of a shadowed outer binding is found under
    a symbol whose lookup gives another value. *)
Theorem C20_getSymbol_shadowed_refuted :
  exists (ss : scopes nat) sym, sst_run [Put "x" 2; Push; Put "x" 1]%string = Ok ss /\ sst_symbol_of ss 1 sym /\ sst_get ss sym = Ok 2.
Proof.
  eexists _, "x"%string. split; [by vm_compute|]. split; [|by vm_compute]. eexists 0, _. split; [done|]. split; [done|].
  intros j t s Hj Ht. destruct j as [|[|j]]; [lia| |done]. exfalso. injection Hj as <-.
  change (({["x"%string := 2]} : gmap string nat) !! s = Some 1) in Ht. apply lookup_singleton_Some in Ht as [_ ?]. lia.
Qed.

Print Assumptions C20_lookup.
Print Assumptions C20_leaving_restores.
Print Assumptions C20_popScope_result.
Print Assumptions C20_block.
