(** The translation of scripts into SSA form preserves their meaning. *)
From stdpp Require Import base numbers list gmap.
From Coq Require Import ZArith Lia.
From Verif Require Import FrontModel.

(** * Specification: what a script means *)
Section spec.
  Context {V : Type} (int : V -> Z) (num : Z -> V) (truthy : V -> bool).
  (** The variables that are defined, with their values *)
  Definition store := nat -> option V.
  Definition upd (σ : store) (x : nat) (v : V) : store := fun y => if decide (y = x) then Some v else σ y.
  (** Leaving a block: variables that did not exist before are forgotten *)
  Definition restrict (σ σ' : store) : store := fun x => match σ x with Some _ => σ' x | None => None end.
  Fixpoint ev_expr (σ : store) (e : expr V) : option V :=
    match e with EVar x => σ x | EOp f es => vs ← ev_exprs σ es; Some (f vs) end
  with ev_exprs (σ : store) (es : exprs V) : option (list V) :=
    match es with ENil => Some [] | ECons e es => v ← ev_expr σ e; vs ← ev_exprs σ es; Some (v :: vs) end.
  (** from:to:step, both ends included, counting upwards or downwards *)
  Definition range (from to step : Z) : list Z :=
    if decide (0 < step /\ from <= to)%Z then map (fun k => from + Z.of_nat k * step)%Z (seq 0 (S (Z.to_nat ((to - from) / step))))
    else if decide (step < 0 /\ to <= from)%Z then map (fun k => from + Z.of_nat k * step)%Z (seq 0 (S (Z.to_nat ((from - to) / - step))))
    else [].
  Fixpoint ev_while (n : nat) (c : store -> option V) (b : store -> option store) (σ : store) : option store :=
    match n with
    | 0 => None
    | S n => v ← c σ; if truthy v then σ' ← b σ; ev_while n c b (restrict σ σ') else Some σ
    end.
  Fixpoint ev_do (n : nat) (c : store -> option V) (b : store -> option store) (σ : store) : option store :=
    match n with
    | 0 => None
    | S n => σ' ← b σ; v ← c (restrict σ σ'); if truthy v then ev_do n c b (restrict σ σ') else Some (restrict σ σ')
    end.
  Fixpoint ev_for (x : nat) (b : store -> option store) (is : list Z) (σ : store) : option store :=
    match is with [] => Some σ | i :: is => σ' ← b (upd σ x (num i)); ev_for x b is (restrict σ σ') end.
  (** [n] bounds the number of iterations of every while loop; None: not finished (or an undefined variable) *)
  Fixpoint eval (n : nat) (s : stmt V) (σ : store) : option store :=
    match s with
    | SAssign x e => v ← ev_expr σ e; Some (upd σ x v)
    | SExpr e => _ ← ev_expr σ e; Some σ
    | SBlock ss => σ' ← evals n ss σ; Some (restrict σ σ')
    | SIf c th el => v ← ev_expr σ c; σ' ← (if truthy v then eval n th σ else eval n el σ); Some (restrict σ σ')
    | SWhile c b => ev_while n (fun σ => ev_expr σ c) (eval n b) σ
    | SDo b c => ev_do n (fun σ => ev_expr σ c) (eval n b) σ
    | SFor x from to step b =>
        f ← ev_expr σ from; t ← ev_expr σ to;
        s ← (match step with Some e => s ← ev_expr σ e; Some (int s) | None => Some (if decide (int f <= int t)%Z then 1 else -1)%Z end);
        ev_for x (eval n b) (range (int f) (int t) s) σ
    end
  with evals (n : nat) (ss : stmts V) (σ : store) : option store :=
    match ss with SNil => Some σ | SCons s ss => σ' ← eval n s σ; evals n ss σ' end.
End spec.

Scheme op_ind2 := Induction for op Sort Prop with code_ind2 := Induction for code Sort Prop.
Combined Scheme op_code_ind from op_ind2, code_ind2.
Scheme expr_ind2 := Induction for expr Sort Prop with exprs_ind2 := Induction for exprs Sort Prop.
Combined Scheme expr_exprs_ind from expr_ind2, exprs_ind2.
Scheme stmt_ind2 := Induction for stmt Sort Prop with stmts_ind2 := Induction for stmts Sort Prop.
Combined Scheme stmt_stmts_ind from stmt_ind2, stmts_ind2.

(** * The intermediate representation *)
Section irp.
  Context {V : Type} (int : V -> Z) (num : Z -> V) (truthy : V -> bool).
  Implicit Types e : env (V := V).
  Local Notation xop := (xop int num truthy).
  Local Notation xcode := (xcode int num truthy).
  Local Notation xops := (xops int num truthy).
  Lemma xcode_cons n o c e : xcode n (CCons o c) e = (e1 ← xop n o e; xcode n c e1). Proof. reflexivity. Qed.
  Lemma xop_if n c rs th el e : xop n (IIf c rs th el) e = (vs ← (if truthy (e c) then xcode n th e else xcode n el e); Some (binds e rs vs)). Proof. reflexivity. Qed.
  Lemma xop_for n lo hi st rs inits iv ps body e : xop n (IFor lo hi st rs inits iv ps body) e =
    (is ← counts (int (e lo)) (int (e hi)) (int (e st)); vs ← for_loop (fun i vals => xcode n body (binds (bind1 e iv (num i)) ps vals)) is (map e inits); Some (binds e rs vs)). Proof. reflexivity. Qed.
  Lemma xop_while n rs inits bps before aps after e : xop n (IWhile rs inits bps before aps after) e =
    (vs ← while_loop truthy n (fun vals => xcode n before (binds e bps vals)) (fun vals => xcode n after (binds e aps vals)) (map e inits); Some (binds e rs vs)). Proof. reflexivity. Qed.
  Lemma repl_if v p c rs (th el : code V) : repl_op v p (IIf c rs th el) = IIf (rp v p c) rs (repl v p th) (repl v p el). Proof. reflexivity. Qed.
  Lemma repl_for v p lo hi st rs inits iv ps (body : code V) : repl_op v p (IFor lo hi st rs inits iv ps body) = IFor (rp v p lo) (rp v p hi) (rp v p st) rs (map (rp v p) inits) iv ps (repl v p body). Proof. reflexivity. Qed.
  Lemma repl_while v p rs inits bps (before : code V) aps after : repl_op v p (IWhile rs inits bps before aps after) = IWhile rs (map (rp v p) inits) bps (repl v p before) aps (repl v p after). Proof. reflexivity. Qed.
  Lemma repl_cons v p (o : op V) c : repl v p (CCons o c) = CCons (repl_op v p o) (repl v p c). Proof. reflexivity. Qed.
  Definition rng (lo hi : nat) (l : list nat) : Prop := forall v, v ∈ l -> lo <= v < hi.
  Fixpoint dop (lo hi : nat) (o : op V) : Prop :=
    match o with
    | IOp r _ _ => lo <= r < hi
    | IIf _ rs th el => rng lo hi rs /\ dcode lo hi th /\ dcode lo hi el
    | IFor _ _ _ rs _ iv ps body => rng lo hi rs /\ lo <= iv < hi /\ rng lo hi ps /\ dcode lo hi body
    | IWhile rs _ bps before aps after => rng lo hi rs /\ rng lo hi bps /\ dcode lo hi before /\ rng lo hi aps /\ dcode lo hi after
    end
  with dcode (lo hi : nat) (c : code V) : Prop := match c with CRet _ => True | CCons o c => dop lo hi o /\ dcode lo hi c end.
  Definition dops (lo hi : nat) (ops : list (op V)) : Prop := Forall (dop lo hi) ops.
  Lemma rng_mono lo hi lo' hi' l : lo' <= lo -> hi <= hi' -> rng lo hi l -> rng lo' hi' l.
  Proof. intros H1 H2 H v Hv. specialize (H v Hv). lia. Qed.
  Lemma dop_mono lo hi lo' hi' : lo' <= lo -> hi <= hi' -> (forall o, dop lo hi o -> dop lo' hi' o) /\ (forall c, dcode lo hi c -> dcode lo' hi' c).
  Proof.
    intros H1 H2. apply op_code_ind; cbn; intros; try (intuition (eauto using rng_mono; lia)).
  Qed.
  Lemma dops_mono lo hi lo' hi' ops : lo' <= lo -> hi <= hi' -> dops lo hi ops -> dops lo' hi' ops.
  Proof. intros H1 H2 H. eapply Forall_impl; [exact H|]. intros o. by apply dop_mono. Qed.
  Lemma dcode_mk lo hi ops vs : dops lo hi ops -> dcode lo hi (mk ops vs).
  Proof. induction 1; cbn; [done|]. split; done. Qed.
  Lemma repl_defs lo hi v p : (forall o, dop lo hi (repl_op v p o) <-> dop lo hi o) /\ (forall c, dcode lo hi (repl v p c) <-> dcode lo hi c).
  Proof.
    apply op_code_ind; intros; rewrite ?repl_if, ?repl_for, ?repl_while, ?repl_cons.
    - done.
    - change (rng lo hi rs /\ dcode lo hi (repl v p th) /\ dcode lo hi (repl v p el) <-> rng lo hi rs /\ dcode lo hi th /\ dcode lo hi el). tauto.
    - change (rng lo hi rs /\ lo <= iv < hi /\ rng lo hi ps /\ dcode lo hi (repl v p body) <-> rng lo hi rs /\ lo <= iv < hi /\ rng lo hi ps /\ dcode lo hi body). tauto.
    - change (rng lo hi rs /\ rng lo hi bps /\ dcode lo hi (repl v p before) /\ rng lo hi aps /\ dcode lo hi (repl v p after) <-> rng lo hi rs /\ rng lo hi bps /\ dcode lo hi before /\ rng lo hi aps /\ dcode lo hi after). tauto.
    - done.
    - change (dop lo hi (repl_op v p o) /\ dcode lo hi (repl v p c) <-> dop lo hi o /\ dcode lo hi c). tauto.
  Qed.
  Lemma repl_all_defs lo hi l : forall c, dcode lo hi (repl_all l c) <-> dcode lo hi c.
  Proof. induction l as [|[v p] l IH]; intros c; cbn [repl_all]; [done|]. rewrite IH. apply repl_defs. Qed.

  Lemma binds_fresh vs : forall e xs u, u ∉ vs -> binds e vs xs u = e u.
  Proof.
    induction vs as [|w vs IH]; intros e [|o os] u Hv; cbn [binds]; try done. rewrite not_elem_of_cons in Hv. destruct Hv as [Hne Hv]. rewrite IH by done. unfold bind1. by rewrite decide_False.
  Qed.
  Lemma binds_lookup vs : forall e xs i v x, NoDup vs -> vs !! i = Some v -> xs !! i = Some x -> binds e vs xs v = x.
  Proof.
    induction vs as [|w vs IH]; intros e [|o os] i v x Hd Hv Hx; try done. cbn [binds]. apply NoDup_cons in Hd as [Hw Hd]. destruct i as [|i]; cbn in Hv, Hx.
    - injection Hv as ->. injection Hx as ->. rewrite binds_fresh by done. unfold bind1. by rewrite decide_True.
    - by eapply IH.
  Qed.
  Lemma binds_cong vs : forall e e' xs u, (u ∉ vs -> e u = e' u) -> length xs = length vs -> binds e vs xs u = binds e' vs xs u.
  Proof.
    induction vs as [|w vs IH]; intros e e' [|o os] u He Hl; try done; cbn [binds].
    - apply He. apply not_elem_of_nil.
    - apply IH; [|cbn in Hl; lia]. intros Hu. unfold bind1. destruct (decide (u = w)) as [->|Hn]; [done|]. apply He. by apply not_elem_of_cons.
  Qed.
  Lemma rng_out lo hi l u : rng lo hi l -> u < lo \/ hi <= u -> u ∉ l.
  Proof. intros H Hu Hin. specialize (H u Hin). lia. Qed.
  Lemma frame n lo hi o e e' u : xop n o e = Some e' -> dop lo hi o -> u < lo \/ hi <= u -> e' u = e u.
  Proof.
    destruct o as [r f args|c rs th el|l h st rs inits iv ps body|rs inits bps before aps after]; rewrite ?xop_if, ?xop_for, ?xop_while; cbn [dop]; intros E D Hu.
    - cbn in E. injection E as <-. unfold bind1. rewrite decide_False; [done|lia].
    - destruct D as [D _]. destruct (if truthy (e c) then _ else _) as [vs|]; [|done]. cbn in E. injection E as <-. apply binds_fresh. by eapply rng_out.
    - destruct D as [D _]. destruct (counts _ _ _) as [is|]; [|done]. cbn in E. destruct (for_loop _ _ _) as [vs|]; [|done]. cbn in E. injection E as <-. apply binds_fresh. by eapply rng_out.
    - destruct D as [D _]. destruct (while_loop _ _ _ _ _) as [vs|]; [|done]. cbn in E. injection E as <-. apply binds_fresh. by eapply rng_out.
  Qed.
  Lemma frames n lo hi ops : forall e e' u, xops n ops e = Some e' -> dops lo hi ops -> u < lo \/ hi <= u -> e' u = e u.
  Proof.
    induction ops as [|o ops IH]; cbn; intros e e' u E D Hu; [congruence|]. destruct (xop n o e) as [e1|] eqn:E1; [|done]. cbn in E. inversion D; subst.
    rewrite (IH _ _ _ E) by done. by eapply frame.
  Qed.
  Lemma xops_app n o1 : forall o2 e, xops n (o1 ++ o2) e = (e1 ← xops n o1 e; xops n o2 e1).
  Proof. induction o1 as [|o o1 IH]; intros o2 e; cbn; [done|]. destruct (xop n o e); cbn; [apply IH|done]. Qed.
  Lemma xcode_mk n ops vs : forall e, xcode n (mk ops vs) e = (e1 ← xops n ops e; Some (map e1 vs)).
  Proof. induction ops as [|o ops IH]; intros e; [done|]. cbn [mk FrontModel.xops]. rewrite xcode_cons. destruct (xop n o e); cbn; [apply IH|done]. Qed.
  Lemma for_loop_ext f g is : (forall i v, f i v = g i v) -> forall vals, for_loop (V := V) f is vals = for_loop g is vals.
  Proof. intros Hfg. induction is as [|i is IH]; intros vals; cbn; [done|]. rewrite Hfg. destruct (g i vals); cbn; [apply IH|done]. Qed.
  Lemma while_loop_ext n : forall f g f' g' vals, (forall v, f v = f' v) -> (forall v, g v = g' v) -> while_loop truthy n f g vals = while_loop truthy n f' g' vals.
  Proof.
    induction n as [|n IH]; intros f g f' g' vals H1 H2; cbn; [done|]. rewrite H1. destruct (f' vals) as [[|c out]|]; cbn; try done. destruct (truthy c); [|done].
    rewrite H2. destruct (g' out); cbn; [by apply IH|done].
  Qed.
  (** Replacing the uses of [v] by [p] has the same effect as giving [v] the value of [p] *)
  Definition R (v p : nat) (e e2 : env (V := V)) : Prop := (forall u, u <> v -> e2 u = e u) /\ e2 v = e p.
  Lemma R_rp v p e e2 u : R v p e e2 -> e (rp v p u) = e2 u.
  Proof. intros [H1 H2]. unfold rp. destruct (decide (u = v)) as [->|Hn]; [done|]. symmetry. by apply H1. Qed.
  Lemma R_map v p e e2 l : R v p e e2 -> map e (map (rp v p) l) = map e2 l.
  Proof. intros HR. rewrite map_map. apply map_ext. intros u. by apply R_rp. Qed.
  Lemma R_bind1 v p e e2 u x : R v p e e2 -> u <> v -> u <> p -> R v p (bind1 e u x) (bind1 e2 u x).
  Proof.
    intros [H1 H2] Hv Hp. split.
    - intros w Hw. unfold bind1. destruct (decide (w = u)); [done|]. by apply H1.
    - unfold bind1. rewrite !decide_False by done. done.
  Qed.
  Lemma R_binds v p us : forall e e2 xs, R v p e e2 -> v ∉ us -> p ∉ us -> R v p (binds e us xs) (binds e2 us xs).
  Proof.
    induction us as [|u us IH]; intros e e2 [|x xs] HR Hv Hp; cbn [binds]; try done. rewrite not_elem_of_cons in Hv, Hp. apply IH; [|tauto|tauto]. apply R_bind1; [done| |]; intuition congruence.
  Qed.
  Definition Ropt (v p : nat) (r r2 : option (env (V := V))) : Prop := match r, r2 with Some e, Some e2 => R v p e e2 | None, None => True | _, _ => False end.
  Lemma repl_ok n lo hi v p : (v < lo \/ hi <= v) -> (p < lo \/ hi <= p) ->
    (forall o e e2, dop lo hi o -> R v p e e2 -> Ropt v p (xop n (repl_op v p o) e) (xop n o e2)) /\
    (forall c e e2, dcode lo hi c -> R v p e e2 -> xcode n (repl v p c) e = xcode n c e2).
  Proof.
    intros Hv Hp. apply op_code_ind.
    - intros r f args e e2 D HR. cbn in D |- *. rewrite (R_map _ _ _ _ _ HR). apply R_bind1; [done|lia|lia].
    - intros c rs th IHt el IHe e e2 (Dr & Dt & De) HR. rewrite repl_if, !xop_if, (R_rp _ _ _ _ _ HR), (IHt e e2 Dt HR), (IHe e e2 De HR).
      destruct (if truthy (e2 c) then _ else _) as [vs|]; [|done]. cbn. apply R_binds; [done| |]; by eapply rng_out.
    - intros l h st rs inits iv ps body IH e e2 (Dr & Di & Dp & Db) HR. rewrite repl_for, !xop_for, !(R_rp _ _ _ _ _ HR), (R_map _ _ _ _ _ HR). destruct (counts _ _ _) as [is|]; [|done]. cbn.
      erewrite (for_loop_ext _ _ is). 2:{ intros i vs. apply IH; [done|]. apply R_binds; [apply R_bind1; [done|lia|lia]| |]; by eapply rng_out. }
      destruct (for_loop _ _ _) as [vs|]; [|done]. cbn. apply R_binds; [done| |]; by eapply rng_out.
    - intros rs inits bps before IHb aps after IHa e e2 (Dr & Db & Dbc & Da & Dac) HR. rewrite repl_while, !xop_while, (R_map _ _ _ _ _ HR).
      erewrite (while_loop_ext n).
      2:{ intros vs. apply IHb; [done|]. apply R_binds; [done| |]; by eapply rng_out. }
      2:{ intros vs. apply IHa; [done|]. apply R_binds; [done| |]; by eapply rng_out. }
      destruct (while_loop _ _ _ _ _) as [vs|]; [|done]. cbn. apply R_binds; [done| |]; by eapply rng_out.
    - intros vs e e2 _ HR. cbn. by rewrite (R_map _ _ _ _ _ HR).
    - intros o IHo c IHc e e2 [Do Dc] HR. specialize (IHo e e2 Do HR). unfold Ropt in IHo. rewrite repl_cons, !xcode_cons. destruct (xop n (repl_op v p o) e), (xop n o e2); try done. cbn. by apply IHc.
  Qed.
  Lemma repl_same v : (forall o : op V, repl_op v v o = o) /\ (forall c : code V, repl v v c = c).
  Proof.
    assert (forall u, rp v v u = u) as Hrp by (intros u; unfold rp; by destruct (decide (u = v))).
    assert (forall l, map (rp v v) l = l) as Hmap by (intros l; rewrite <- (map_id l) at 2; by apply map_ext).
    apply op_code_ind; intros; rewrite ?repl_if, ?repl_for, ?repl_while, ?repl_cons; cbn; rewrite ?Hrp, ?Hmap; congruence.
  Qed.
  Lemma repl_all_ok n lo hi l : lo <= hi -> forall c e e2, dcode lo hi c -> (forall v p, (v, p) ∈ l -> v < lo /\ hi <= p) -> NoDup (map fst l) ->
    (forall u, u ∉ map fst l -> e2 u = e u) -> (forall v p, (v, p) ∈ l -> e2 v = e p) -> xcode n (repl_all l c) e = xcode n c e2.
  Proof.
    intros Hlh. induction l as [|[v p] l IH]; intros c e e2 D Hb Hd Ho Hi; cbn [repl_all].
    - assert (R hi hi e e2) as HR. { split; [intros u _|]; apply Ho; apply not_elem_of_nil. }
      rewrite <- (proj2 (repl_ok n lo hi hi hi ltac:(lia) ltac:(lia)) c e e2 D HR). f_equal. symmetry. apply repl_same.
    - cbn in Hd. apply NoDup_cons in Hd as [Hv Hd]. pose proof (Hb v p ltac:(left)) as [Bv Bp].
      set (e1 := fun u => if decide (u = v) then e v else e2 u).
      rewrite (IH (repl v p c) e e1).
      + apply (proj2 (repl_ok n lo hi v p ltac:(lia) ltac:(lia)) c e1 e2 D). split.
        * intros u Hu. unfold e1. by rewrite decide_False.
        * rewrite (Hi v p) by left. unfold e1. rewrite decide_False by lia. rewrite Ho; [done|]. cbn. intros [->|Hin]%elem_of_cons; [lia|].
          apply elem_of_list_fmap in Hin as ([v' p'] & -> & Hin). destruct (Hb v' p'); [by right|]. cbn in *. lia.
      + by apply repl_defs.
      + intros v' p' Hin. apply Hb. by right.
      + done.
      + intros u Hu. unfold e1. destruct (decide (u = v)) as [->|Hn]; [done|]. apply Ho. cbn. by apply not_elem_of_cons.
      + intros v' p' Hin. unfold e1. rewrite decide_False. { apply Hi. by right. } intros ->. apply Hv. apply elem_of_list_fmap. by exists (v, p').
  Qed.
End irp.

(** * The symbol table *)
Lemma empty_none x i : (∅ : scope) !! x = Some i -> False.
Proof. intros E. change ((∅ : gmap nat info) !! x = Some i) in E. by rewrite lookup_empty in E. Qed.
Definition ent (scs : list scope) (i x v : nat) : Prop := exists s b, scs !! i = Some s /\ s !! x = Some (v, b).
(** No two entries of the table denote the same value *)
Definition wf (scs : list scope) (nx : nat) : Prop :=
  scs <> [] /\ (forall i x v, ent scs i x v -> v < nx) /\ (forall i j x y v, ent scs i x v -> ent scs j y v -> i = j /\ x = y).
Lemma ent_0 s r x v : ent (s :: r) 0 x v <-> exists b, s !! x = Some (v, b).
Proof. split; [intros (s' & b & [= <-] & H); eauto|intros (b & H); exists s, b; done]. Qed.
Lemma ent_S s r i x v : ent (s :: r) (S i) x v <-> ent r i x v.
Proof. done. Qed.
Lemma vis_ent scs x v b : vis scs !! x = Some (v, b) -> exists i, ent scs i x v.
Proof.
  induction scs as [|s r IH]; cbn; intros E; [by apply empty_none in E|]. apply lookup_union_Some_raw in E as [E|[_ E]].
  - exists 0. apply ent_0. eauto.
  - destruct (IH E) as (i & Hi). by exists (S i).
Qed.
Lemma wf_vis_lt scs nx x v b : wf scs nx -> vis scs !! x = Some (v, b) -> v < nx.
Proof. intros (_ & H & _) (i & Hi)%vis_ent. by eapply H. Qed.
Lemma wf_vis_inj scs nx x y v b b' : wf scs nx -> vis scs !! x = Some (v, b) -> vis scs !! y = Some (v, b') -> x = y.
Proof. intros (_ & _ & H) (i & Hi)%vis_ent (j & Hj)%vis_ent. by eapply H. Qed.
Lemma wf_mono scs nx nx' : wf scs nx -> nx <= nx' -> wf scs nx'.
Proof. intros (H1 & H2 & H3) Hle. split; [done|]. split; [|done]. intros i x v Hi. specialize (H2 _ _ _ Hi). lia. Qed.
Lemma wf_push scs nx : wf scs nx -> wf (∅ :: scs) nx.
Proof.
  intros (H1 & H2 & H3). split; [done|]. split.
  - intros [|i] x v; [rewrite ent_0; intros (b & E); by apply empty_none in E|]. rewrite ent_S. apply H2.
  - intros [|i] [|j] x y v; rewrite ?ent_0, ?ent_S; intros Hi Hj; try (destruct Hi as (b & E); by apply empty_none in E); try (destruct Hj as (b & E); by apply empty_none in E).
    destruct (H3 _ _ _ _ _ Hi Hj). split; congruence.
Qed.
Lemma put_ent scs x v b i y w : ent (put x (v, b) scs) i y w -> (i = 0 /\ y = x /\ w = v) \/ (ent scs i y w /\ ~ (i = 0 /\ y = x)).
Proof.
  destruct scs as [|s r]; [intros (s' & b' & Hs & _); done|]. cbn [put]. destruct i as [|i]; rewrite ?ent_0, ?ent_S.
  - intros (b' & E). destruct (decide (y = x)) as [->|Hn]; [rewrite lookup_insert in E; left; naive_solver|]. rewrite lookup_insert_ne in E by done. right. split; [eauto|]. tauto.
  - intros E. right. split; [done|]. lia.
Qed.
Lemma wf_put scs nx x v b : wf scs nx -> v < nx -> (forall i y, ~ ent scs i y v) -> wf (put x (v, b) scs) nx.
Proof.
  intros (H1 & H2 & H3) Hv Hf. split; [by destruct scs|]. split.
  - intros i y w [(-> & -> & ->)|[E _]]%put_ent; [done|]. by eapply H2.
  - intros i j y z w [(-> & -> & ->)|[E _]]%put_ent [(-> & -> & Hw)|[E' _]]%put_ent; subst; try done; try (exfalso; by eapply Hf). by eapply H3.
Qed.
Lemma has_val_spec scs v : has_val scs v = true <-> exists i x, ent scs i x v.
Proof.
  unfold has_val. rewrite existsb_exists. split.
  - intros (s & Hs%elem_of_list_In & E). rewrite existsb_exists in E. destruct E as ([x [w b]] & Hx%elem_of_list_In & Ew%Nat.eqb_eq). cbn in Ew. subst w.
    apply elem_of_list_lookup in Hs as (i & Hi). apply elem_of_map_to_list in Hx. exists i, x, s, b. done.
  - intros (i & x & s & b & Hi & Hx). exists s. split; [apply elem_of_list_In; by eapply elem_of_list_lookup_2|]. apply existsb_exists. exists (x, (v, b)).
    split; [by apply elem_of_list_In, elem_of_map_to_list|]. apply Nat.eqb_refl.
Qed.
Lemma vis_put scs x i : scs <> [] -> vis (put x i scs) = <[x:=i]> (vis scs).
Proof. destruct scs as [|s r]; [done|]. intros _. cbn. by rewrite insert_union_l. Qed.
Lemma vis_put_all scs t : scs <> [] -> vis (put_all t scs) = t ∪ vis scs.
Proof. destruct scs as [|s r]; [done|]. intros _. cbn. by rewrite map_union_assoc. Qed.
Lemma pop_lookup s r x i : (pop (s :: r)).1 !! x = Some i <-> s !! x = Some i /\ is_Some (vis r !! x).
Proof. cbn. rewrite map_filter_lookup_Some. done. Qed.
Lemma wf_tail s r nx : wf (s :: r) nx -> r <> [] -> wf r nx.
Proof.
  intros (_ & H2 & H3) Hr. split; [done|]. split.
  - intros i x v E. apply (H2 (S i) x). by rewrite ent_S.
  - intros i j x y v E E'. destruct (H3 (S i) (S j) x y v); [by rewrite ent_S|by rewrite ent_S|]. split; congruence.
Qed.
Lemma wf_put_all s r nx : wf (s :: r) nx -> r <> [] -> wf (put_all (pop (s :: r)).1 r) nx.
Proof.
  intros Hw Hr. pose proof Hw as (_ & H2 & H3). destruct r as [|s1 r]; [done|]. unfold put_all.
  assert (forall i x v, ent (((pop (s :: s1 :: r)).1 ∪ s1) :: r) i x v -> exists i', ent (s :: s1 :: r) i' x v /\ ((i' = 0 /\ i = 0) \/ (i' = S i /\ (i = 0 -> (pop (s :: s1 :: r)).1 !! x = None)))) as Hent.
  { intros [|i] x v; rewrite ?ent_0, ?ent_S.
    - intros (b & [E|[En E]]%lookup_union_Some_raw).
      + exists 0. split; [|by left]. apply ent_0. apply pop_lookup in E as [E _]. eauto.
      + exists 1. split; [apply ent_S, ent_0; eauto|]. right. done.
    - intros E. exists (S (S i)). split; [by rewrite !ent_S|]. right. split; [done|]. lia. }
  split; [done|]. split.
  - intros i x v (i' & E & _)%Hent. by eapply H2.
  - intros i j x y v (i' & E & Hi)%Hent (j' & E' & Hj)%Hent. destruct (H3 _ _ _ _ _ E E') as [Hij ->]. split; [|done]. lia.
Qed.
Lemma seq_fresh k nx scs : wf scs nx -> forall i y v, v ∈ seq nx k -> ~ ent scs i y v.
Proof. intros (_ & H & _) i y v Hv E. apply elem_of_seq in Hv. specialize (H _ _ _ E). lia. Qed.
Lemma wf_puts names : forall scs nx, wf scs nx -> wf (puts names (seq nx (length names)) scs) (nx + length names).
Proof.
  unfold puts. induction names as [|x names IH]; intros scs nx Hw; cbn; [by rewrite Nat.add_0_r|].
  rewrite <- Nat.add_succ_comm. apply IH. apply wf_put; [eapply wf_mono; [exact Hw|lia]|lia|]. intros i y E. destruct Hw as (_ & H & _). specialize (H _ _ _ E). lia.
Qed.
Lemma puts_ne names : forall rs scs, scs <> [] -> puts names rs scs <> [].
Proof.
  unfold puts. induction names as [|x names IH]; intros [|r rs] scs Hs; cbn; try done. apply IH. by destruct scs.
Qed.
Lemma tail_put x i scs : tail (put x i scs) = tail scs.
Proof. by destruct scs. Qed.
Lemma tail_puts names : forall rs scs, tail (puts names rs scs) = tail scs.
Proof. unfold puts. induction names as [|x names IH]; intros [|r rs] scs; cbn; try done. unfold puts in IH. rewrite IH. apply tail_put. Qed.
Lemma tail_put_all t scs : tail (put_all t scs) = tail scs.
Proof. by destruct scs. Qed.
Lemma vis_puts names : forall rs scs x, scs <> [] -> NoDup names -> length rs = length names ->
  (forall i r, names !! i = Some x -> rs !! i = Some r -> vis (puts names rs scs) !! x = Some (r, false)) /\ (x ∉ names -> vis (puts names rs scs) !! x = vis scs !! x).
Proof.
  unfold puts. induction names as [|y names IH]; intros [|r rs] scs x Hs Hd Hl; try done. cbn [zip zip_with foldl fst snd]. apply NoDup_cons in Hd as [Hy Hd]. cbn in Hl.
  destruct (IH rs (put y (r, false) scs) x) as [H1 H2]; [by destruct scs|done|lia|]. split.
  - intros [|i] r' Hn Hr; cbn in Hn, Hr.
    + injection Hn as ->. injection Hr as ->. etransitivity; [apply H2; done|]. rewrite vis_put by done. apply lookup_insert.
    + by apply (H1 i).
  - intros Hx. rewrite not_elem_of_cons in Hx. etransitivity; [apply H2; tauto|]. rewrite vis_put by done. apply lookup_insert_ne. intuition.
Qed.

Section match_.
  Context {V : Type}.
  Implicit Types (σ : store (V := V)) (e : env (V := V)).
  (** The variables visible in the symbol table have the values the table says *)
  Definition vmatch (m : scope) σ e : Prop := forall x, σ x = (fun i : info => e (fst i)) <$> m !! x.
  (** The same, where the values of [names] are those in [vals] *)
  Definition lmatch (names : list nat) (vals : list V) (scs : list scope) σ e : Prop :=
    length vals = length names /\ (forall x, x ∉ names -> σ x = (fun i : info => e (fst i)) <$> vis scs !! x) /\ (forall i x v, names !! i = Some x -> vals !! i = Some v -> σ x = Some v).
  Lemma vmatch_frame scs nx σ e e' : wf scs nx -> vmatch (vis scs) σ e -> (forall u, u < nx -> e' u = e u) -> vmatch (vis scs) σ e'.
  Proof.
    intros Hw Hm He x. rewrite Hm. destruct (vis scs !! x) as [[v b]|] eqn:E; [|done]. cbn. f_equal. symmetry. apply He. by eapply wf_vis_lt.
  Qed.
  Lemma restrict_match s1 scs σ σ' e e' : vmatch (vis scs) σ e -> vmatch (vis (s1 :: scs)) σ' e' -> vmatch ((pop (s1 :: scs)).1 ∪ vis scs) (restrict σ σ') e'.
  Proof.
    intros H1 H2 x. unfold restrict. rewrite (H1 x), (H2 x). cbn [vis foldr]. fold (vis scs). cbn [pop fst]. destruct (vis scs !! x) as [i|] eqn:E; cbn.
    - f_equal. rewrite !lookup_union. f_equal. symmetry. destruct (s1 !! x) as [j|] eqn:E1.
      + apply map_filter_lookup_Some. split; [done|]. cbn. by rewrite E.
      + apply map_filter_lookup_None. by left.
    - rewrite lookup_union, E. match goal with |- context [filter ?P s1 !! x] => assert (filter P s1 !! x = None) as -> end; [|done].
      apply map_filter_lookup_None. right. intros j _ [k Hk]. cbn in Hk. congruence.
  Qed.
  Lemma results_match names rs scs σ e vals : scs <> [] -> NoDup names -> NoDup rs -> length rs = length names -> (forall x v b, vis scs !! x = Some (v, b) -> v ∉ rs) ->
    lmatch names vals scs σ e -> vmatch (vis (puts names rs scs)) σ (binds e rs vals).
  Proof.
    intros Hs Hn Hr Hl Hf (L & H1 & H2) x. destruct (vis_puts names rs scs x Hs Hn Hl) as [V1 V2]. destruct (decide (x ∈ names)) as [Hx|Hx].
    - apply elem_of_list_lookup in Hx as (i & Hi). pose proof (lookup_lt_Some _ _ _ Hi) as Li. destruct (lookup_lt_is_Some_2 rs i) as (r & Ei); [lia|]. destruct (lookup_lt_is_Some_2 vals i) as (v & Ev); [lia|].
      rewrite (V1 i r Hi Ei), (H2 i x v Hi Ev). cbn. f_equal. symmetry. by eapply binds_lookup.
    - rewrite V2, H1 by done. destruct (vis scs !! x) as [[v b]|] eqn:E; [|done]. cbn. f_equal. symmetry. apply binds_fresh. by eapply Hf.
  Qed.
  Lemma lmatch_vmatch names inits vals scs nx σ e e1 : wf scs nx -> NoDup names -> Forall2 (fun x v => exists b, vis scs !! x = Some (v, b)) names inits ->
    (forall u, u < nx -> e1 u = e u) -> lmatch names vals scs σ e -> vmatch (vis scs) σ (binds e1 inits vals).
  Proof.
    intros Hw Hn HF He (L & H1 & H2) x. pose proof (Forall2_length _ _ _ HF) as HL. destruct (decide (x ∈ names)) as [Hx|Hx].
    - apply elem_of_list_lookup in Hx as (i & Hi). pose proof (lookup_lt_Some _ _ _ Hi) as Li. destruct (lookup_lt_is_Some_2 inits i) as (u & Ei); [lia|]. destruct (lookup_lt_is_Some_2 vals i) as (v & Ev); [lia|].
      rewrite (H2 i x v Hi Ev). destruct (Forall2_lookup_lr _ _ _ _ _ _ HF Hi Ei) as (b & ->). cbn. f_equal. symmetry. eapply binds_lookup; [|done|done].
      apply NoDup_alt. intros j k w Hj Hk. destruct (lookup_lt_is_Some_2 names j) as (y & Ey); [apply lookup_lt_Some in Hj; lia|]. destruct (lookup_lt_is_Some_2 names k) as (z & Ez); [apply lookup_lt_Some in Hk; lia|].
      destruct (Forall2_lookup_lr _ _ _ _ _ _ HF Ey Hj) as (b1 & E1). destruct (Forall2_lookup_lr _ _ _ _ _ _ HF Ez Hk) as (b2 & E2).
      assert (y = z) as <- by (by eapply wf_vis_inj). by eapply NoDup_lookup.
    - rewrite H1 by done. destruct (vis scs !! x) as [[v b]|] eqn:E; [|done]. cbn. f_equal. rewrite binds_fresh; [symmetry; apply He; by eapply wf_vis_lt|].
      intros (i & Hi)%elem_of_list_lookup. destruct (lookup_lt_is_Some_2 names i) as (y & Ey); [apply lookup_lt_Some in Hi; lia|].
      destruct (Forall2_lookup_lr _ _ _ _ _ _ HF Ey Hi) as (b1 & E1). assert (y = x) as -> by (by eapply wf_vis_inj). apply Hx. by eapply elem_of_list_lookup_2.
  Qed.
  Lemma inits_NoDup names inits scs nx : wf scs nx -> NoDup names -> Forall2 (fun x v => exists b, vis scs !! x = Some (v, b)) names inits -> NoDup inits.
  Proof.
    intros Hw Hn HF. pose proof (Forall2_length _ _ _ HF) as HL.
    apply NoDup_alt. intros j k w Hj Hk. destruct (lookup_lt_is_Some_2 names j) as (y & Ey); [apply lookup_lt_Some in Hj; lia|]. destruct (lookup_lt_is_Some_2 names k) as (z & Ez); [apply lookup_lt_Some in Hk; lia|].
    destruct (Forall2_lookup_lr _ _ _ _ _ _ HF Ey Hj) as (b1 & E1). destruct (Forall2_lookup_lr _ _ _ _ _ _ HF Ez Hk) as (b2 & E2).
    assert (y = z) as <- by (by eapply wf_vis_inj). by eapply NoDup_lookup.
  Qed.
  Lemma not_init names inits scs nx x v b : wf scs nx -> Forall2 (fun x v => exists b, vis scs !! x = Some (v, b)) names inits -> vis scs !! x = Some (v, b) -> x ∉ names -> v ∉ inits.
  Proof.
    intros Hw HF E Hx (i & Hi)%elem_of_list_lookup. pose proof (Forall2_length _ _ _ HF) as HL. destruct (lookup_lt_is_Some_2 names i) as (y & Ey); [apply lookup_lt_Some in Hi; lia|].
    destruct (Forall2_lookup_lr _ _ _ _ _ _ HF Ey Hi) as (b1 & E1). assert (y = x) as -> by (by eapply wf_vis_inj). apply Hx. by eapply elem_of_list_lookup_2.
  Qed.
  Lemma branch_match names ids scs nx s1 σ σ' e e1 : wf scs nx -> vmatch (vis scs) σ e -> (forall u, u < nx -> e1 u = e u) -> vmatch (vis (s1 :: scs)) σ' e1 ->
    (forall x, is_Some ((pop (s1 :: scs)).1 !! x) -> x ∈ names) -> Forall2 (fun x v => exists b, ((pop (s1 :: scs)).1 ∪ vis scs) !! x = Some (v, b)) names ids ->
    lmatch names (map e1 ids) scs (restrict σ σ') e.
  Proof.
    intros Hw Hm He Hm' Hd HF. pose proof (restrict_match _ _ _ _ _ _ Hm Hm') as HR. pose proof (Forall2_length _ _ _ HF) as HL. split; [|split].
    - rewrite map_length. done.
    - intros x Hx. rewrite (HR x), lookup_union. destruct ((pop (s1 :: scs)).1 !! x) as [i|] eqn:E; [destruct Hx; apply Hd; by rewrite E|].
      destruct (vis scs !! x) as [[v b]|] eqn:E1; [|done]. cbn. f_equal. apply He. by eapply wf_vis_lt.
    - intros i x v Hi Hv. change (map e1 ids) with (e1 <$> ids) in Hv. rewrite list_lookup_fmap in Hv. destruct (ids !! i) as [u|] eqn:Eu; [|done]. injection Hv as <-.
      destruct (Forall2_lookup_lr _ _ _ _ _ _ HF Hi Eu) as (b & Eb). rewrite (HR x), Eb. done.
  Qed.
  Lemma lmatch_change names vals scs σ e e' : lmatch names vals scs σ e -> (forall x v b, x ∉ names -> vis scs !! x = Some (v, b) -> e' v = e v) -> lmatch names vals scs σ e'.
  Proof.
    intros (L & H1 & H2) He. split; [done|]. split; [|done]. intros x Hx. rewrite H1 by done. destruct (vis scs !! x) as [[v b]|] eqn:E; [|done]. cbn. f_equal. symmetry. by eapply He.
  Qed.
  Lemma lmatch_start names inits scs σ e : Forall2 (fun x v => exists b, vis scs !! x = Some (v, b)) names inits -> vmatch (vis scs) σ e -> lmatch names (map e inits) scs σ e.
  Proof.
    intros HF Hm. split; [rewrite map_length; symmetry; by eapply Forall2_length|]. split; [intros x _; apply Hm|].
    intros i x v Hi Hv. change (map e inits) with (e <$> inits) in Hv. rewrite list_lookup_fmap in Hv. destruct (inits !! i) as [u|] eqn:Eu; [|done]. injection Hv as <-.
    destruct (Forall2_lookup_lr _ _ _ _ _ _ HF Hi Eu) as (b & Eb). by rewrite (Hm x), Eb.
  Qed.
End match_.
Lemma mapM_vis (m : scope) names ids : mapM (fun x => i ← m !! x; Some (fst i)) names = Some ids -> Forall2 (fun x v => exists b, m !! x = Some (v, b)) names ids.
Proof.
  intros H%mapM_Some. eapply Forall2_impl; [exact H|]. intros x v ([w b] & E & [= <-])%bind_Some. eauto.
Qed.
Lemma own_names (t : scope) (m : scope) : Forall2 (fun x v => exists b, (t ∪ m) !! x = Some (v, b)) (map fst (map_to_list t)) (map (fun xi => fst (snd xi)) (map_to_list t)).
Proof.
  apply Forall2_same_length_lookup_2; [by rewrite !map_length|]. intros i x v. change (map fst (map_to_list t)) with (fst <$> map_to_list t). change (map (fun xi : nat * info => xi.2.1) (map_to_list t)) with ((fun xi : nat * info => xi.2.1) <$> map_to_list t).
  rewrite !list_lookup_fmap. destruct (map_to_list t !! i) as [[y [w b]]|] eqn:E; [|done]. cbn. intros [= <-] [= <-]. exists b. apply lookup_union_Some_l. apply elem_of_map_to_list. by eapply elem_of_list_lookup_2.
Qed.
Lemma names_NoDup (t : scope) : NoDup (map fst (map_to_list t)).
Proof. apply NoDup_fst_map_to_list. Qed.
Lemma names_dom (t : scope) x : is_Some (t !! x) -> x ∈ map fst (map_to_list t).
Proof. intros [i Hi]. apply elem_of_list_fmap. exists (x, i). split; [done|]. by apply elem_of_map_to_list. Qed.

(** * Counting *)
Lemma counts_range f t s : exists is, counts (f * Z.sgn s) ((t + Z.sgn s) * Z.sgn s) (s * Z.sgn s) = Some is /\ map (fun i => i * Z.sgn s)%Z is = range f t s.
Proof.
  unfold counts, range. destruct (Z.lt_trichotomy s 0) as [Hs|[->|Hs]].
  - rewrite Z.sgn_neg by done. rewrite (decide_False (P := (0 < s /\ f <= t)%Z)) by lia. destruct (decide (s < 0 /\ t <= f)%Z) as [[_ H]|H].
    + rewrite decide_False by lia. rewrite decide_False by lia. eexists. split; [done|]. rewrite map_map.
      replace (Z.to_nat (((t + -1) * -1 - f * -1 + s * -1 - 1) / (s * -1))) with (S (Z.to_nat ((f - t) / - s))).
      { apply map_ext. intros k. lia. }
      replace ((t + -1) * -1 - f * -1 + s * -1 - 1)%Z with ((f - t) + 1 * (- s))%Z by lia. replace (s * -1)%Z with (- s)%Z by lia. rewrite Z.div_add by lia.
      pose proof (Z.div_pos (f - t) (- s) ltac:(lia) ltac:(lia)). lia.
    + rewrite decide_True by lia. by exists [].
  - exists []. split; [|by rewrite !decide_False by lia]. cbn [Z.sgn]. rewrite decide_True by lia. done.
  - rewrite Z.sgn_pos by done. destruct (decide (0 < s /\ f <= t)%Z) as [[_ H]|H].
    + rewrite decide_False by lia. rewrite decide_False by lia. eexists. split; [done|]. rewrite map_map.
      replace (Z.to_nat (((t + 1) * 1 - f * 1 + s * 1 - 1) / (s * 1))) with (S (Z.to_nat ((t - f) / s))).
      { apply map_ext. intros k. lia. }
      replace ((t + 1) * 1 - f * 1 + s * 1 - 1)%Z with ((t - f) + 1 * s)%Z by lia. replace (s * 1)%Z with s by lia. rewrite Z.div_add by lia.
      pose proof (Z.div_pos (t - f) s ltac:(lia) ltac:(lia)). lia.
    + rewrite decide_True by lia. rewrite decide_False by lia. by exists [].
Qed.

Section trp.
  Context {V : Type} (int : V -> Z) (num : Z -> V) (truthy : V -> bool) (dflt : V) (int_num : forall z, int (num z) = z).
  Implicit Types (σ : store (V := V)) (e : env (V := V)).
  Local Notation xop := (xop int num truthy).
  Local Notation xcode := (xcode int num truthy).
  Local Notation xops := (xops int num truthy).
  Local Notation t_stmt := (t_stmt int num dflt).
  Local Notation t_stmts := (t_stmts int num dflt).
  Local Notation t_bounds := (t_bounds int num dflt).
  Local Notation eval := (eval int num truthy).
  Local Notation evals := (evals int num truthy).

  Lemma t_op scs f es nx : t_expr scs (EOp f es) nx = ('(ops, vs, nx) ← t_exprs scs es nx; Some (ops ++ [IOp (V := V) nx f vs], nx, S nx)). Proof. reflexivity. Qed.
  Lemma t_econs scs (ex : expr V) es nx : t_exprs scs (ECons ex es) nx = ('(o1, v, nx) ← t_expr scs ex nx; '(o2, vs, nx) ← t_exprs scs es nx; Some (o1 ++ o2, v :: vs, nx)). Proof. reflexivity. Qed.
  Lemma ev_op σ f es : ev_expr σ (EOp f es) = (vs ← ev_exprs σ es; Some (f vs)). Proof. reflexivity. Qed.
  Lemma ev_econs σ ex es : ev_exprs σ (ECons ex es) = (v ← ev_expr σ ex; vs ← ev_exprs σ es; Some (v :: vs)). Proof. reflexivity. Qed.
  Lemma xops_single n r f args e : xops n [IOp r f args] e = Some (bind1 e r (f (map e args))). Proof. reflexivity. Qed.

  Lemma t_expr_ok scs nx0 : wf scs nx0 ->
    (forall (ex : expr V) nx ops v nx', nx0 <= nx -> t_expr scs ex nx = Some (ops, v, nx') ->
       nx <= nx' /\ dops nx nx' ops /\ v < nx' /\ (nx <= v \/ exists x b, vis scs !! x = Some (v, b)) /\
       forall n σ e, vmatch (vis scs) σ e -> exists e', xops n ops e = Some e' /\ ev_expr σ ex = Some (e' v)) /\
    (forall (es : exprs V) nx ops vs nx', nx0 <= nx -> t_exprs scs es nx = Some (ops, vs, nx') ->
       nx <= nx' /\ dops nx nx' ops /\ (forall v, v ∈ vs -> v < nx') /\
       forall n σ e, vmatch (vis scs) σ e -> exists e', xops n ops e = Some e' /\ ev_exprs σ es = Some (map e' vs)).
  Proof.
    intros Hw. apply expr_exprs_ind.
    - intros x nx ops v nx' Hle ([w b] & E & [= <- <- <-])%bind_Some. cbn [fst]. pose proof (wf_vis_lt _ _ _ _ _ Hw E). split; [lia|]. split; [constructor|]. split; [lia|]. split; [right; eauto|].
      intros n σ e Hm. exists e. split; [done|]. cbn. rewrite (Hm x), E. done.
    - intros f es IH nx ops v nx' Hle H. rewrite t_op in H. apply bind_Some in H as ([[o vs] nx1] & E & [= <- <- <-]). destruct (IH _ _ _ _ Hle E) as (H1 & H2 & H3 & H4).
      split; [lia|]. split; [apply Forall_app; split; [eapply dops_mono; [| |exact H2]; lia|]; repeat constructor; lia|]. split; [lia|]. split; [left; lia|].
      intros n σ e Hm. destruct (H4 n σ e Hm) as (e' & X & Y). eexists. rewrite xops_app, X. cbn [mbind option_bind]. rewrite xops_single. split; [done|]. rewrite ev_op, Y. cbn. f_equal. unfold bind1. by rewrite decide_True.
    - intros nx ops vs nx' Hle [= <- <- <-]. split; [done|]. split; [constructor|]. split; [intros v Hv; by apply not_elem_of_nil in Hv|]. intros n σ e Hm. by exists e.
    - intros ex IH1 es IH2 nx ops vs nx' Hle H. rewrite t_econs in H. apply bind_Some in H as ([[o1 v] nx1] & E1 & H). apply bind_Some in H as ([[o2 vs1] nx2] & E2 & [= <- <- <-]).
      destruct (IH1 _ _ _ _ Hle E1) as (A1 & A2 & A3 & A4 & A5). destruct (IH2 _ _ _ _ (Nat.le_trans _ _ _ Hle A1) E2) as (B1 & B2 & B3 & B4).
      split; [lia|]. split; [apply Forall_app; split; [eapply dops_mono; [| |exact A2]; lia|eapply dops_mono; [| |exact B2]; lia]|]. split.
      { intros u [->|Hu]%elem_of_cons; [lia|]. by apply B3. }
      intros n σ e Hm. destruct (A5 n σ e Hm) as (e1 & X1 & Y1). destruct (B4 n σ e1) as (e2 & X2 & Y2).
      { eapply vmatch_frame; [exact Hw|exact Hm|]. intros u Hu. eapply frames; [exact X1|exact A2|]. lia. }
      exists e2. rewrite xops_app, X1. cbn [mbind option_bind]. split; [done|]. rewrite ev_econs, Y1, Y2. cbn. f_equal. f_equal. symmetry. eapply frames; [exact X2|exact B2|]. lia.
  Qed.
  Lemma t_expr1 scs nx ex ops v nx' : wf scs nx -> t_expr scs ex nx = Some (ops, v, nx') ->
       nx <= nx' /\ dops nx nx' ops /\ v < nx' /\ (nx <= v \/ exists x b, vis scs !! x = Some (v, b)) /\
       forall n σ e, vmatch (vis scs) σ e -> exists e', xops n ops e = Some e' /\ (forall u, u < nx \/ nx' <= u -> e' u = e u) /\ ev_expr σ ex = Some (e' v).
  Proof.
    intros Hw E. destruct (proj1 (t_expr_ok scs nx Hw) ex nx ops v nx' (le_n _) E) as (H1 & H2 & H3 & H4 & H5). repeat (split; [done|]). intros n σ e Hm. destruct (H5 n σ e Hm) as (e' & X & Y).
    exists e'. split; [done|]. split; [|done]. intros u Hu. by eapply frames.
  Qed.
  Lemma t_bounds_ok scs from to step nx ops lo hi st dir nx' : wf scs nx -> t_bounds scs from to step nx = Some (ops, (lo, hi, st, dir), nx') ->
    nx <= nx' /\ dops nx nx' ops /\ lo < nx' /\ hi < nx' /\ st < nx' /\ nx <= dir < nx' /\
    forall n σ e, vmatch (vis scs) σ e -> exists e' f t s, xops n ops e = Some e' /\ (forall u, u < nx \/ nx' <= u -> e' u = e u) /\ ev_expr σ from = Some f /\ ev_expr σ to = Some t /\
      (match step with Some ex => s ← ev_expr σ ex; Some (int s) | None => Some (if decide (int f <= int t)%Z then 1 else -1)%Z end) = Some s /\
      int (e' lo) = (int f * Z.sgn s)%Z /\ int (e' hi) = ((int t + Z.sgn s) * Z.sgn s)%Z /\ int (e' st) = (s * Z.sgn s)%Z /\ int (e' dir) = Z.sgn s.
  Proof.
    intros Hw H. unfold FrontModel.t_bounds in H. apply bind_Some in H as ([[o1 vf] n1] & E1 & H). apply bind_Some in H as ([[o2 vt] n2] & E2 & H). apply bind_Some in H as ([[[o3 vs] vd] n3] & E3 & H).
    injection H as <- <- <- <- <- <-.
    destruct (t_expr1 _ _ _ _ _ _ Hw E1) as (A1 & A2 & A3 & A4 & A5). assert (wf scs n1) as W1 by (eapply wf_mono; [exact Hw|lia]).
    destruct (t_expr1 _ _ _ _ _ _ W1 E2) as (B1 & B2 & B3 & B4 & B5). assert (wf scs n2) as W2 by (eapply wf_mono; [exact Hw|lia]).
    assert (n2 <= n3 /\ dops n2 n3 o3 /\ vs < n3 /\ n2 <= vd < n3 /\ forall n σ e f t, vmatch (vis scs) σ e -> e vf = f -> e vt = t ->
      exists e' s, xops n o3 e = Some e' /\ (forall u, u < n2 \/ n3 <= u -> e' u = e u) /\
      (match step with Some ex => s ← ev_expr σ ex; Some (int s) | None => Some (if decide (int f <= int t)%Z then 1 else -1)%Z end) = Some s /\ int (e' vs) = s /\ int (e' vd) = Z.sgn s) as (C1 & C2 & C3 & C4 & C5).
    { destruct step as [ex|].
      - apply bind_Some in E3 as ([[o vs'] n2'] & E3 & [= <- <- <- <-]). destruct (t_expr1 _ _ _ _ _ _ W2 E3) as (D1 & D2 & D3 & D4 & D5).
        split; [lia|]. split; [apply Forall_app; split; [eapply dops_mono; [| |exact D2]; lia|]; repeat constructor; lia|]. split; [lia|]. split; [lia|].
        intros n σ e f t Hm Ef Et. destruct (D5 n σ e Hm) as (e1 & X & Y & Z). eexists _, (int (e1 vs')). rewrite xops_app, X. cbn [mbind option_bind]. rewrite xops_single. split; [done|].
        split; [intros u Hu; unfold bind1; rewrite decide_False by lia; apply Y; lia|]. rewrite Z. split; [done|]. unfold bind1. rewrite decide_False by lia. split; [done|]. rewrite decide_True by done. cbn. apply int_num.
      - injection E3 as <- <- <- <-. split; [lia|]. split; [repeat constructor; lia|]. split; [lia|]. split; [lia|]. intros n σ e f t Hm Ef Et. eexists _, _. rewrite xops_single. split; [done|].
        split; [intros u Hu; unfold bind1; by rewrite decide_False by lia|]. split; [done|]. unfold bind1. rewrite decide_True by done. cbn [map]. unfold arg. cbn. rewrite int_num, Ef, Et.
        destruct (decide (int f <= int t)%Z); [rewrite decide_True by lia|rewrite decide_False by lia]; done. }
    split; [lia|]. split.
    { repeat (apply Forall_app; split); [eapply dops_mono; [| |exact A2]; lia|eapply dops_mono; [| |exact B2]; lia|eapply dops_mono; [| |exact C2]; lia|]. repeat constructor; lia. }
    split; [lia|]. split; [lia|]. split; [lia|]. split; [lia|].
    intros n σ e Hm. destruct (A5 n σ e Hm) as (e1 & X1 & F1 & Y1). assert (vmatch (vis scs) σ e1) as M1 by (eapply vmatch_frame; [exact Hw|exact Hm|]; intros u Hu; apply F1; lia).
    destruct (B5 n σ e1 M1) as (e2 & X2 & F2 & Y2). assert (vmatch (vis scs) σ e2) as M2 by (eapply vmatch_frame; [exact W1|exact M1|]; intros u Hu; apply F2; lia).
    destruct (C5 n σ e2 (e1 vf) (e2 vt) M2) as (e3 & s & X3 & F3 & Ys & Zs & Zd); [apply F2; lia|done|].
    eexists _, (e1 vf), (e2 vt), s. rewrite xops_app, X1. cbn [mbind option_bind]. rewrite xops_app, X2. cbn [mbind option_bind]. rewrite xops_app, X3. cbn [mbind option_bind].
    split; [reflexivity|]. split.
    { intros u Hu. unfold bind1. rewrite !decide_False by lia. rewrite F3, F2, F1 by lia. done. }
    split; [done|]. split; [done|]. split; [exact Ys|]. unfold bind1. cbn [map]. unfold arg. cbn [lookup list_lookup default].
    assert (e3 vf = e1 vf) as Ef by (rewrite F3, F2 by lia; done). assert (e3 vt = e2 vt) as Et by (rewrite F3 by lia; done).
    repeat match goal with
      | |- context [@decide (?a = ?b) _] => first [rewrite (decide_True (P := a = b)) by lia | rewrite (decide_False (P := a = b)) by lia]
      end.
    cbn. rewrite !int_num, Ef, Et, Zd, Zs. auto.
  Qed.

  (** One step of the translation and of the evaluation *)
  Lemma t_assign x ex scs nx : t_stmt (SAssign x ex) scs nx = ('(ops, v, nx) ← t_expr scs ex nx;
        if (match vis scs !! x with Some i => snd i | None => false end) then None else
        if has_val scs v then Some (ops ++ [IOp nx (arg dflt 0) [v]], put x (nx, false) scs, S nx) else Some (ops, put x (v, false) scs, nx)). Proof. reflexivity. Qed.
  Lemma t_block ss scs nx : t_stmt (SBlock ss) scs nx = ('(ops, scs, nx) ← t_stmts ss (∅ :: scs) nx; let '(ow, scs) := pop scs in Some (ops, put_all ow scs, nx)). Proof. reflexivity. Qed.
  Lemma t_if c th el scs nx : t_stmt (SIf c th el) scs nx = ('(oc, vc, nx) ← t_expr scs c nx;
        '(ot, scs, nx) ← t_stmt th (∅ :: scs) nx;
        let '(owt, scs) := pop scs in
        '(oe, scs, nx) ← t_stmt el (∅ :: scs) nx;
        let '(owe, scs) := pop scs in
        let names := map fst (map_to_list (owt ∪ owe)) in
        vts ← mapM (fun x => i ← (owt ∪ vis scs) !! x; Some (fst (i : info))) names;
        ves ← mapM (fun x => i ← (owe ∪ vis scs) !! x; Some (fst (i : info))) names;
        let rs := seq nx (length names) in
        Some (oc ++ [IIf vc rs (mk ot vts) (mk oe ves)], puts names rs scs, nx + length names)). Proof. reflexivity. Qed.
  Lemma t_while c b scs nx : t_stmt (SWhile c b) scs nx = ('(oc, vc, nx) ← t_expr scs c nx;
        '(ob, scs, nx) ← t_stmt b (∅ :: scs) nx;
        let '(ow, scs) := pop scs in
        let names := map fst (map_to_list ow) in
        let vals := map (fun xi => fst (snd xi)) (map_to_list ow) in
        inits ← mapM (fun x => i ← vis scs !! x; Some (fst i)) names;
        let k := length names in
        let bps := seq nx k in let aps := seq (nx + k) k in let rs := seq (nx + 2 * k) k in
        Some ([IWhile rs inits bps (repl_all (zip inits bps) (mk oc (vc :: bps))) aps (repl_all (zip inits aps) (mk ob vals))], puts names rs scs, nx + 3 * k)). Proof. reflexivity. Qed.
  Lemma t_do c b scs nx : t_stmt (SDo b c) scs nx = ('(ob, scs, nx) ← t_stmt b (∅ :: ∅ :: scs) nx;
        let '(ow, scs) := pop scs in
        '(oc, vc, nx) ← t_expr (put_all ow scs) c nx;
        let '(_, scs) := pop (put_all ow scs) in
        let names := map fst (map_to_list ow) in
        let vals := map (fun xi => fst (snd xi)) (map_to_list ow) in
        inits ← mapM (fun x => i ← vis scs !! x; Some (fst i)) names;
        let k := length names in
        let bps := seq nx k in let aps := seq (nx + k) k in let rs := seq (nx + 2 * k) k in
        Some ([IWhile rs inits bps (repl_all (zip inits bps) (mk (ob ++ oc) (vc :: vals))) aps (repl_all (zip inits aps) (mk [] aps))], puts names rs scs, nx + 3 * k)). Proof. reflexivity. Qed.
  Lemma t_for x from to step b scs nx : t_stmt (SFor x from to step b) scs nx = ('(oh, (lo, hi, st, dir), nx) ← t_bounds scs from to step nx;
        let iv := nx in
        '(ob, scs, nx) ← t_stmt b ({[x := (nx + 1, true)]} :: scs) (nx + 2);
        let '(ow, scs) := pop scs in
        let names := map fst (map_to_list ow) in
        let vals := map (fun xi => fst (snd xi)) (map_to_list ow) in
        inits ← mapM (fun x => i ← vis scs !! x; Some (fst i)) names;
        let k := length names in
        let ps := seq nx k in let rs := seq (nx + k) k in
        Some (oh ++ [IFor lo hi st rs inits iv ps (repl_all (zip inits ps) (mk (IOp (iv + 1) (fun l => num (int (arg dflt 0 l) * int (arg dflt 1 l))%Z) [iv; dir] :: ob) vals))], puts names rs scs, nx + 2 * k)). Proof. reflexivity. Qed.
  Lemma t_scons s ss scs nx : t_stmts (SCons s ss) scs nx = ('(o1, scs, nx) ← t_stmt s scs nx; '(o2, scs, nx) ← t_stmts ss scs nx; Some (o1 ++ o2, scs, nx)). Proof. reflexivity. Qed.
  Lemma ev_block n ss σ : eval n (SBlock ss) σ = (σ' ← evals n ss σ; Some (restrict σ σ')). Proof. reflexivity. Qed.
  Lemma ev_if n c th el σ : eval n (SIf c th el) σ = (v ← ev_expr σ c; σ' ← (if truthy v then eval n th σ else eval n el σ); Some (restrict σ σ')). Proof. reflexivity. Qed.
  Lemma ev_whl n c b σ : eval n (SWhile c b) σ = ev_while truthy n (fun σ => ev_expr σ c) (eval n b) σ. Proof. reflexivity. Qed.
  Lemma ev_dowhl n c b σ : eval n (SDo b c) σ = ev_do truthy n (fun σ => ev_expr σ c) (eval n b) σ. Proof. reflexivity. Qed.
  Lemma ev_forl n x from to step b σ : eval n (SFor x from to step b) σ = (f ← ev_expr σ from; t ← ev_expr σ to;
        s ← (match step with Some e => s ← ev_expr σ e; Some (int s) | None => Some (if decide (int f <= int t)%Z then 1 else -1)%Z end);
        ev_for num x (eval n b) (range (int f) (int t) s) σ). Proof. reflexivity. Qed.
  Lemma ev_scons n s ss σ : evals n (SCons s ss) σ = (σ' ← eval n s σ; evals n ss σ'). Proof. reflexivity. Qed.

  (** Loops *)
  Lemma repl_zip n lo hi inits ps c e vals : lo <= hi -> dcode lo hi c -> (forall v, v ∈ inits -> v < lo) -> (forall p, p ∈ ps -> hi <= p) -> NoDup inits -> NoDup ps ->
    length inits = length ps -> length vals = length ps -> xcode n (repl_all (zip inits ps) c) (binds e ps vals) = xcode n c (binds (binds e ps vals) inits vals).
  Proof.
    intros Hlh D Hi Hp Ni Np L1 L2. assert (map fst (zip inits ps) = inits) as Hfst by (apply (fst_zip inits ps); lia).
    apply (repl_all_ok int num truthy n lo hi); [done|done| |by rewrite Hfst| |].
    - intros v p H. split; [apply Hi; by eapply elem_of_zip_l|apply Hp; by eapply elem_of_zip_r].
    - intros u Hu. rewrite Hfst in Hu. by apply binds_fresh.
    - intros v p (i & H)%elem_of_list_lookup. apply lookup_zip_with_Some in H as (v' & p' & [= -> ->] & Ev & Ep).
      destruct (lookup_lt_is_Some_2 vals i) as (y & Ey); [apply lookup_lt_Some in Ep; lia|]. etransitivity; [by eapply binds_lookup|]. symmetry. by eapply binds_lookup.
  Qed.
  Definition agree {A B} (r : option A) (r' : option B) (P : A -> B -> Prop) : Prop := match r with Some a => exists b, r' = Some b /\ P a b | None => r' = None end.
  Lemma while_match (c : store (V := V) -> option V) b before after (P : list V -> store (V := V) -> Prop) :
    (forall vals σ, P vals σ -> exists v, c σ = Some v /\ before vals = Some (v :: vals)) ->
    (forall vals σ, P vals σ -> agree (b σ) (after vals) (fun σ' vals' => P vals' (restrict σ σ'))) ->
    forall n vals σ, P vals σ -> agree (ev_while truthy n c b σ) (while_loop truthy n before after vals) (fun σ' vals' => P vals' σ').
  Proof.
    intros Hc Hb. induction n as [|n IH]; intros vals σ HP; cbn [ev_while while_loop]; [done|]. destruct (Hc _ _ HP) as (v & -> & ->). cbn. destruct (truthy v); [|by exists vals].
    specialize (Hb _ _ HP). destruct (b σ) as [σ'|]; cbn in Hb |- *; [|by rewrite Hb]. destruct Hb as (vals' & -> & HP'). cbn. by apply IH.
  Qed.
  Lemma do_match (c : store (V := V) -> option V) b before after (P : list V -> store (V := V) -> Prop) :
    (forall vals σ, P vals σ -> agree (b σ) (before vals) (fun σ' out => exists v vals', out = v :: vals' /\ c (restrict σ σ') = Some v /\ P vals' (restrict σ σ'))) ->
    (forall vals σ, P vals σ -> after vals = Some vals) ->
    forall n vals σ, P vals σ -> agree (ev_do truthy n c b σ) (while_loop truthy n before after vals) (fun σ' vals' => P vals' σ').
  Proof.
    intros Hb Ha. induction n as [|n IH]; intros vals σ HP; cbn [ev_do while_loop]; [done|]. specialize (Hb _ _ HP). destruct (b σ) as [σ'|]; cbn in Hb |- *; [|by rewrite Hb].
    destruct Hb as (out & -> & v & vals' & -> & -> & HP'). cbn. destruct (truthy v); [|by exists vals']. rewrite (Ha _ _ HP'). cbn. by apply IH.
  Qed.
  Lemma for_match x b body (f : Z -> Z) (P : list V -> store (V := V) -> Prop) :
    (forall i vals σ, P vals σ -> agree (b (upd σ x (num (f i)))) (body i vals) (fun σ' vals' => P vals' (restrict σ σ'))) ->
    forall is vals σ, P vals σ -> agree (ev_for num x b (map f is) σ) (for_loop body is vals) (fun σ' vals' => P vals' σ').
  Proof.
    intros Hb. induction is as [|i is IH]; intros vals σ HP; cbn [ev_for for_loop map]; [by exists vals|]. specialize (Hb i _ _ HP). destruct (b (upd σ x (num (f i)))) as [σ'|]; cbn in Hb |- *; [|by rewrite Hb].
    destruct Hb as (vals' & -> & HP'). cbn. by apply IH.
  Qed.

  Definition Tok (scs : list scope) (nx : nat) (ops : list (op V)) (scs' : list scope) (nx' : nat) (ev : nat -> store (V := V) -> option (store (V := V))) : Prop :=
    nx <= nx' /\ dops nx nx' ops /\ wf scs' nx' /\ tail scs' = tail scs /\
    forall n σ e, vmatch (vis scs) σ e -> agree (ev n σ) (xops n ops e) (fun σ' e' => vmatch (vis scs') σ' e').
  Lemma Tok_frame scs nx ops scs' nx' ev n σ e : Tok scs nx ops scs' nx' ev -> vmatch (vis scs) σ e ->
    agree (ev n σ) (xops n ops e) (fun σ' e' => vmatch (vis scs') σ' e' /\ forall u, u < nx \/ nx' <= u -> e' u = e u).
  Proof.
    intros (_ & D & _ & _ & H) Hm. specialize (H n σ e Hm). destruct (ev n σ) as [σ'|]; cbn in H |- *; [|done]. destruct H as (e' & X & H). exists e'. split; [done|]. split; [done|]. intros u Hu. by eapply frames.
  Qed.
  Lemma tail_cons {A} (l : list A) r : l <> [] -> tail l = r -> exists s, l = s :: r.
  Proof. destruct l as [|a l]; [done|]. intros _ <-. by exists a. Qed.
  Lemma vis_push scs : vis (∅ :: scs) = vis scs.
  Proof. cbn. apply map_empty_union. Qed.
  Lemma upd_match x (v : nat) b scs σ e : scs <> [] -> vmatch (vis scs) σ e -> vmatch (vis (put x (v, b) scs)) (upd σ x (e v)) e.
  Proof.
    intros Hs Hm y. rewrite vis_put by done. unfold upd. destruct (decide (y = x)) as [->|Hn]; [by rewrite lookup_insert|]. rewrite lookup_insert_ne by done. apply Hm.
  Qed.
  Lemma in_seq_lt k nx v : v ∈ seq nx k -> nx <= v < nx + k.
  Proof. rewrite elem_of_seq. lia. Qed.
  Lemma finish names scs nx base σ e vals : wf scs nx -> nx <= base -> NoDup names -> lmatch names vals scs σ e ->
    vmatch (vis (puts names (seq base (length names)) scs)) σ (binds e (seq base (length names)) vals).
  Proof.
    intros Hw Hb Hn HL. apply results_match; [by destruct Hw|done|apply NoDup_seq|by rewrite seq_length| |done].
    intros x v b E Hv%in_seq_lt. pose proof (wf_vis_lt _ _ _ _ _ Hw E). lia.
  Qed.
  Lemma wf_finish names scs nx base : wf scs nx -> nx <= base -> wf (puts names (seq base (length names)) scs) (base + length names).
  Proof. intros Hw Hb. apply wf_puts. by eapply wf_mono. Qed.
  Lemma rng_seq lo hi base k : lo <= base -> base + k <= hi -> rng lo hi (seq base k).
  Proof. intros H1 H2 v Hv%in_seq_lt. lia. Qed.
  Lemma inits_lt names inits scs nx v : wf scs nx -> Forall2 (fun x v => exists b, vis scs !! x = Some (v, b)) names inits -> v ∈ inits -> v < nx.
  Proof.
    intros Hw HF (i & Hi)%elem_of_list_lookup. destruct (Forall2_lookup_r _ _ _ _ _ HF Hi) as (x & _ & b & E). by eapply wf_vis_lt.
  Qed.
  Lemma binds_params base k inits e vals : length vals = k -> (forall v, v ∈ inits -> v < base) -> map (binds (binds e (seq base k) vals) inits vals) (seq base k) = vals.
  Proof.
    intros L Hi. apply list_eq. intros i. change (map ?f ?l) with (f <$> l). rewrite list_lookup_fmap. destruct (decide (i < k)) as [Hk|Hk].
    - rewrite lookup_seq_lt by done. destruct (lookup_lt_is_Some_2 vals i) as (y & Ey); [lia|]. rewrite Ey. cbn. f_equal. rewrite binds_fresh.
      + eapply binds_lookup; [apply NoDup_seq| |done]. by apply lookup_seq_lt.
      + intros H%Hi. lia.
    - rewrite lookup_seq_ge by lia. symmetry. apply lookup_ge_None. lia.
  Qed.
  Lemma map_binds base k e (vals : list V) : length vals = k -> map (binds e (seq base k) vals) (seq base k) = vals.
  Proof. intros L. rewrite <- (binds_params base k [] e vals L) at 2; [|intros v Hv; by apply not_elem_of_nil in Hv]. by destruct vals. Qed.

  Lemma ok_assign x ex scs nx ops scs' nx' : wf scs nx -> t_stmt (SAssign x ex) scs nx = Some (ops, scs', nx') -> Tok scs nx ops scs' nx' (fun n => eval n (SAssign x ex)).
  Proof.
    intros Hw H. rewrite t_assign in H. apply bind_Some in H as ([[o v] n1] & E & H). destruct (match vis scs !! x with Some i => _ | None => _ end); [done|].
    destruct (t_expr1 _ _ _ _ _ _ Hw E) as (A1 & A2 & A3 & A4 & A5). pose proof (proj1 Hw) as Hs. assert (wf scs n1) as W1 by (eapply wf_mono; [exact Hw|lia]). destruct (has_val scs v) eqn:Eh; injection H as <- <- <-.
    - split; [lia|]. split; [apply Forall_app; split; [eapply dops_mono; [| |exact A2]; lia|]; repeat constructor; lia|]. split.
      { apply wf_put; [eapply wf_mono; [exact Hw|lia]|lia|]. intros i y Hi. destruct W1 as (_ & H & _). specialize (H _ _ _ Hi). lia. }
      split; [apply tail_put|]. intros n σ e Hm. destruct (A5 n σ e Hm) as (e1 & X & F & Y). cbn [FrontModel.xops]. change (eval n (SAssign x ex) σ) with (v ← ev_expr σ ex; Some (upd σ x v)). rewrite Y. cbn [mbind option_bind agree].
      rewrite xops_app, X. cbn [mbind option_bind]. rewrite xops_single. eexists. split; [done|].
      set (e2 := bind1 _ _ _). assert (e1 v = e2 n1) as -> by (unfold e2, bind1; by rewrite decide_True). apply upd_match; [done|].
      eapply vmatch_frame; [exact Hw|exact Hm|]. intros u Hu. unfold e2, bind1. rewrite decide_False by lia. apply F. lia.
    - split; [lia|]. split; [done|]. assert (forall i y, ~ ent scs i y v) as Hv. { intros i y Hi. assert (has_val scs v = true) as Ht by (apply has_val_spec; eauto). congruence. }
      split; [by apply wf_put|]. split; [apply tail_put|]. intros n σ e Hm. destruct (A5 n σ e Hm) as (e1 & X & F & Y). change (eval n (SAssign x ex) σ) with (v ← ev_expr σ ex; Some (upd σ x v)). rewrite Y. cbn [mbind option_bind agree].
      eexists. split; [done|]. apply upd_match; [done|]. eapply vmatch_frame; [exact Hw|exact Hm|]. intros u Hu. apply F. lia.
  Qed.
  Lemma ok_expr ex scs nx ops scs' nx' : wf scs nx -> t_stmt (SExpr ex) scs nx = Some (ops, scs', nx') -> Tok scs nx ops scs' nx' (fun n => eval n (SExpr ex)).
  Proof.
    intros Hw H. change (t_stmt (SExpr ex) scs nx) with ('(ops, _, nx) ← t_expr scs ex nx; Some (ops, scs, nx)) in H. apply bind_Some in H as ([[o v] n1] & E & [= <- <- <-]).
    destruct (t_expr1 _ _ _ _ _ _ Hw E) as (A1 & A2 & A3 & A4 & A5). split; [done|]. split; [done|]. split; [by eapply wf_mono|]. split; [done|].
    intros n σ e Hm. destruct (A5 n σ e Hm) as (e1 & X & F & Y). change (eval n (SExpr ex) σ) with (_ ← ev_expr σ ex; Some σ). rewrite Y. cbn. exists e1. split; [done|]. eapply vmatch_frame; [exact Hw|exact Hm|]. intros u Hu. apply F. lia.
  Qed.
  Lemma ok_block ss scs nx ops scs' nx' :
    (forall scs nx ops scs' nx', wf scs nx -> t_stmts ss scs nx = Some (ops, scs', nx') -> Tok scs nx ops scs' nx' (fun n => evals n ss)) ->
    wf scs nx -> t_stmt (SBlock ss) scs nx = Some (ops, scs', nx') -> Tok scs nx ops scs' nx' (fun n => eval n (SBlock ss)).
  Proof.
    intros IH Hw H. rewrite t_block in H. apply bind_Some in H as ([[o scs1] n1] & E & H). pose proof (IH _ _ _ _ _ (wf_push _ _ Hw) E) as HT. pose proof HT as (A1 & A2 & A3 & A4 & _). cbn [tail] in A4.
    destruct (tail_cons _ _ (proj1 A3) A4) as (s1 & ->). pose proof (proj1 Hw) as Hs. destruct (pop (s1 :: scs)) as [ow scs2] eqn:Ep. assert (scs2 = scs) as -> by (by injection Ep). assert (ow = (pop (s1 :: scs)).1) as Eow by (by rewrite Ep).
    injection H as <- <- <-. split; [done|]. split; [done|]. split; [rewrite Eow; by apply wf_put_all|]. split; [apply tail_put_all|].
    intros n σ e Hm. rewrite ev_block. assert (vmatch (vis (∅ :: scs)) σ e) as Hm' by (by rewrite vis_push). pose proof (Tok_frame _ _ _ _ _ _ n σ e HT Hm') as HF. destruct (evals n ss σ) as [σ'|]; cbn in HF |- *; [|done].
    destruct HF as (e' & X & Hv & F). exists e'. split; [done|]. rewrite vis_put_all by done. rewrite Eow. eapply restrict_match; [|exact Hv]. exact Hm.
  Qed.
  Lemma pop_cons s1 scs : pop (s1 :: scs) = ((pop (s1 :: scs)).1, scs).
  Proof. done. Qed.
  Lemma xops_one n (o : op V) e : xops n [o] e = xop n o e.
  Proof. cbn [FrontModel.xops]. by destruct (xop n o e). Qed.
  Local Notation okfor s := (forall scs nx ops scs' nx', wf scs nx -> t_stmt s scs nx = Some (ops, scs', nx') -> Tok scs nx ops scs' nx' (fun n => eval n s)).
  Lemma ok_if c th el scs nx ops scs' nx' : okfor th -> okfor el ->
    wf scs nx -> t_stmt (SIf c th el) scs nx = Some (ops, scs', nx') -> Tok scs nx ops scs' nx' (fun n => eval n (SIf c th el)).
  Proof.
    intros IHt IHe Hw H. rewrite t_if in H. apply bind_Some in H as ([[oc vc] n1] & E1 & H). pose proof (t_expr1 _ _ _ _ _ _ Hw E1) as (A1 & A2 & A3 & A4 & A5). assert (wf scs n1) as W1 by (eapply wf_mono; [exact Hw|lia]).
    apply bind_Some in H as ([[ot scs1] n2] & E2 & H). pose proof (IHt _ _ _ _ _ (wf_push _ _ W1) E2) as Tt. pose proof Tt as (B1 & B2 & B3 & B4 & _). cbn [tail] in B4. destruct (tail_cons _ _ (proj1 B3) B4) as (s1 & ->). rewrite pop_cons in H. set (owt := (pop (s1 :: scs)).1) in H.
    assert (wf scs n2) as W2 by (eapply wf_mono; [exact W1|lia]).
    apply bind_Some in H as ([[oe scs2] n3] & E3 & H). pose proof (IHe _ _ _ _ _ (wf_push _ _ W2) E3) as Te. pose proof Te as (C1 & C2 & C3 & C4 & _). cbn [tail] in C4. destruct (tail_cons _ _ (proj1 C3) C4) as (s2 & ->). rewrite pop_cons in H. set (owe := (pop (s2 :: scs)).1) in H.
    assert (wf scs n3) as W3 by (eapply wf_mono; [exact W2|lia]).
    cbv zeta in H. set (names := map fst (map_to_list (owt ∪ owe))) in H.
    apply bind_Some in H as (vts & Mt%mapM_vis & H). apply bind_Some in H as (ves & Me%mapM_vis & [= <- <- <-]).
    assert (forall x, is_Some (owt !! x) -> x ∈ names) as Dt. { intros x [i Hi]. apply names_dom. rewrite lookup_union, Hi. destruct (owe !! x); by eexists. }
    assert (forall x, is_Some (owe !! x) -> x ∈ names) as De. { intros x [i Hi]. apply names_dom. rewrite lookup_union, Hi. destruct (owt !! x); by eexists. }
    assert (NoDup names) as Nn by apply names_NoDup.
    split; [lia|]. split.
    { apply Forall_app. split; [eapply dops_mono; [| |exact A2]; lia|]. constructor; [|constructor]. split; [apply rng_seq; lia|].
      split; (eapply dop_mono; [| |apply dcode_mk; eassumption]); lia. }
    split; [by apply wf_puts|]. split; [apply tail_puts|].
    intros n σ e Hm. rewrite ev_if. destruct (A5 n σ e Hm) as (e1 & X & F & Y). rewrite Y. cbn [mbind option_bind]. rewrite xops_app, X. cbn [mbind option_bind]. rewrite xops_one, xop_if, !xcode_mk.
    assert (vmatch (vis scs) σ e1) as Hm1 by (eapply vmatch_frame; [exact Hw|exact Hm|]; intros u Hu; apply F; lia). assert (vmatch (vis (∅ :: scs)) σ e1) as Hm1' by (by rewrite vis_push).
    destruct (truthy (e1 vc)).
    - pose proof (Tok_frame _ _ _ _ _ _ n σ e1 Tt Hm1') as HF. destruct (eval n th σ) as [σ'|]; cbn in HF |- *; [|by rewrite HF]. destruct HF as (e2 & -> & Hv & F2). cbn. eexists. split; [done|].
      apply (finish names scs n3); [done|done|done|]. eapply branch_match; [exact Hw|exact Hm1| |exact Hv|exact Dt|exact Mt]. intros u Hu. apply F2. lia.
    - pose proof (Tok_frame _ _ _ _ _ _ n σ e1 Te Hm1') as HF. destruct (eval n el σ) as [σ'|]; cbn in HF |- *; [|by rewrite HF]. destruct HF as (e2 & -> & Hv & F2). cbn. eexists. split; [done|].
      apply (finish names scs n3); [done|done|done|]. eapply branch_match; [exact Hw|exact Hm1| |exact Hv|exact De|exact Me]. intros u Hu. apply F2. lia.
  Qed.
  Lemma ok_while c b scs nx ops scs' nx' : okfor b ->
    wf scs nx -> t_stmt (SWhile c b) scs nx = Some (ops, scs', nx') -> Tok scs nx ops scs' nx' (fun n => eval n (SWhile c b)).
  Proof.
    intros IHb Hw H. rewrite t_while in H. apply bind_Some in H as ([[oc vc] n1] & E1 & H). pose proof (t_expr1 _ _ _ _ _ _ Hw E1) as (A1 & A2 & A3 & A4 & A5). assert (wf scs n1) as W1 by (eapply wf_mono; [exact Hw|lia]).
    apply bind_Some in H as ([[ob scs1] n2] & E2 & H). pose proof (IHb _ _ _ _ _ (wf_push _ _ W1) E2) as Tb. pose proof Tb as (B1 & B2 & B3 & B4 & _). cbn [tail] in B4. destruct (tail_cons _ _ (proj1 B3) B4) as (s1 & ->). rewrite pop_cons in H. set (ow := (pop (s1 :: scs)).1) in H.
    assert (wf scs n2) as W2 by (eapply wf_mono; [exact W1|lia]).
    cbv zeta in H. pose proof (own_names ow (vis scs)) as Hown. set (names := map fst (map_to_list ow)) in *. set (ids := map (fun xi => fst (snd xi)) (map_to_list ow)) in *.
    assert (NoDup names) as Nn by apply names_NoDup. assert (forall x, is_Some (ow !! x) -> x ∈ names) as Dn by (intros x; apply names_dom). clearbody names ids.
    apply bind_Some in H as (inits & Mi%mapM_vis & [= <- <- <-]). set (k := length names).
    pose proof (inits_NoDup _ _ _ _ Hw Nn Mi) as Ni. pose proof (Forall2_length _ _ _ Mi) as Li. fold k in Li.
    assert (forall v, v ∈ inits -> v < nx) as Hi by (intros v; exact (inits_lt _ _ _ _ v Hw Mi)).
    assert (dcode nx n1 (mk oc (vc :: seq n2 k))) as D1 by (by apply dcode_mk). assert (dcode n1 n2 (mk ob ids)) as D2 by (by apply dcode_mk).
    split; [lia|]. split.
    { constructor; [|constructor]. split; [apply rng_seq; lia|]. split; [apply rng_seq; lia|]. split; [apply repl_all_defs; eapply dop_mono; [| |exact D1]; lia|]. split; [apply rng_seq; lia|]. apply repl_all_defs. eapply dop_mono; [| |exact D2]; lia. }
    split; [eapply wf_mono; [exact (wf_finish names scs n2 (n2 + 2 * k) W2 ltac:(lia))|unfold k; lia]|]. split; [apply tail_puts|].
    intros n σ e Hm. rewrite ev_whl, xops_one, xop_while.
    set (P := fun vals σ => lmatch names vals scs σ e).
    assert (P (map e inits) σ) as HP by (by apply lmatch_start).
    set (before := fun vals : list V => xcode n (repl_all (zip inits (seq n2 k)) _) _). set (after := fun vals : list V => xcode n (repl_all (zip inits (seq (n2 + k) k)) _) _).
    assert (agree (ev_while truthy n (fun σ => ev_expr σ c) (eval n b) σ) (while_loop truthy n before after (map e inits)) (fun σ' vals' => P vals' σ')) as HG.
    2:{ destruct (ev_while _ _ _ _ _) as [σ'|]; cbn in HG |- *; [|by rewrite HG]. destruct HG as (vals' & -> & HL). cbn. eexists. split; [done|]. apply (finish names scs n2); [done|lia|done|exact HL]. }
    apply while_match; [| |exact HP].
    - intros vals τ HL. pose proof (proj1 HL) as Lv. fold k in Lv. unfold before. rewrite (repl_zip n nx n2 inits (seq n2 k)); [|lia|eapply dop_mono; [| |exact D1]; lia|done| |done|apply NoDup_seq|by rewrite seq_length|by rewrite seq_length].
      2:{ intros p Hp%in_seq_lt. lia. }
      rewrite xcode_mk. set (e2 := binds _ inits vals). assert (vmatch (vis scs) τ e2) as Hm2.
      { eapply lmatch_vmatch; [exact Hw|exact Nn|exact Mi| |exact HL]. intros u Hu. apply binds_fresh. intros Hin%in_seq_lt. lia. }
      destruct (A5 n τ e2 Hm2) as (e3 & X & F & Y). exists (e3 vc). split; [done|]. rewrite X. cbn. f_equal. f_equal. etransitivity; [|apply (binds_params n2 k inits e vals Lv); intros v Hv%Hi; lia].
      apply map_ext_in. intros u Hu%elem_of_list_In%in_seq_lt. apply F. lia.
    - intros vals τ HL. pose proof (proj1 HL) as Lv. fold k in Lv. unfold after. rewrite (repl_zip n n1 n2 inits (seq (n2 + k) k)); [|lia|done| | |done|apply NoDup_seq|by rewrite seq_length|by rewrite seq_length].
      2:{ intros v Hv%Hi. lia. } 2:{ intros p Hp%in_seq_lt. lia. }
      rewrite xcode_mk. set (e2 := binds _ inits vals). assert (vmatch (vis scs) τ e2) as Hm2.
      { eapply lmatch_vmatch; [exact Hw|exact Nn|exact Mi| |exact HL]. intros u Hu. apply binds_fresh. intros Hin%in_seq_lt. lia. }
      assert (vmatch (vis (∅ :: scs)) τ e2) as Hm2' by (by rewrite vis_push). pose proof (Tok_frame _ _ _ _ _ _ n τ e2 Tb Hm2') as HF. destruct (eval n b τ) as [σ'|]; cbn in HF |- *; [|by rewrite HF].
      destruct HF as (e3 & -> & Hv & F). cbn. eexists. split; [done|]. eapply lmatch_change.
      + eapply branch_match; [exact Hw|exact Hm2| |exact Hv|exact Dn|exact Hown]. intros u Hu. apply F. lia.
      + intros x v b' Hx Ex. unfold e2. rewrite binds_fresh by (eapply not_init; [exact Hw|exact Mi|exact Ex|exact Hx]). rewrite binds_fresh; [done|]. intros Hin%in_seq_lt. pose proof (wf_vis_lt _ _ _ _ _ Hw Ex). lia.
  Qed.
  Lemma lmatch_push names vals scs σ e : lmatch names vals (∅ :: scs) σ e -> lmatch names vals scs σ e.
  Proof. unfold lmatch. by rewrite vis_push. Qed.
  Lemma ok_do c b scs nx ops scs' nx' : okfor b ->
    wf scs nx -> t_stmt (SDo b c) scs nx = Some (ops, scs', nx') -> Tok scs nx ops scs' nx' (fun n => eval n (SDo b c)).
  Proof.
    intros IHb Hw H. rewrite t_do in H. pose proof (wf_push _ _ Hw) as Hw1.
    apply bind_Some in H as ([[ob scs1] n1] & E2 & H). pose proof (IHb _ _ _ _ _ (wf_push _ _ Hw1) E2) as Tb. pose proof Tb as (B1 & B2 & B3 & B4 & _). cbn [tail] in B4. destruct (tail_cons _ _ (proj1 B3) B4) as (s1 & ->).
    rewrite pop_cons in H. pose proof (wf_put_all _ _ _ B3 ltac:(done)) as W1. pose proof (vis_put_all (∅ :: scs) (pop (s1 :: ∅ :: scs)).1 ltac:(done)) as V1. set (ow := (pop (s1 :: ∅ :: scs)).1) in *.
    apply bind_Some in H as ([[oc vc] n2] & E1 & H). pose proof (t_expr1 _ _ _ _ _ _ W1 E1) as (A1 & A2 & A3 & A4 & A5).
    change (pop (put_all ow (∅ :: scs))) with ((pop ((ow ∪ ∅) :: scs)).1, scs) in H. cbv zeta in H.
    assert (wf scs n2) as W2 by (eapply wf_mono; [exact Hw|lia]).
    pose proof (own_names ow (vis (∅ :: scs))) as Hown. set (names := map fst (map_to_list ow)) in *. set (ids := map (fun xi => fst (snd xi)) (map_to_list ow)) in *.
    assert (NoDup names) as Nn by apply names_NoDup. assert (forall x, is_Some (ow !! x) -> x ∈ names) as Dn by (intros x; apply names_dom). clearbody names ids.
    apply bind_Some in H as (inits & Mi%mapM_vis & [= <- <- <-]). set (k := length names).
    pose proof (inits_NoDup _ _ _ _ Hw Nn Mi) as Ni. pose proof (Forall2_length _ _ _ Mi) as Li. fold k in Li.
    assert (forall v, v ∈ inits -> v < nx) as Hi by (intros v; exact (inits_lt _ _ _ _ v Hw Mi)).
    assert (forall v, v ∈ ids -> v < n1) as Hids.
    { intros v Hv. rewrite <- V1 in Hown. exact (inits_lt _ _ _ _ v W1 Hown Hv). }
    assert (dcode nx n2 (mk (ob ++ oc) (vc :: ids))) as D1. { apply dcode_mk. apply Forall_app. split; [eapply dops_mono; [| |exact B2]; lia|eapply dops_mono; [| |exact A2]; lia]. }
    split; [lia|]. split.
    { constructor; [|constructor]. split; [apply rng_seq; lia|]. split; [apply rng_seq; lia|]. split; [apply repl_all_defs; eapply dop_mono; [| |exact D1]; lia|]. split; [apply rng_seq; lia|]. by apply repl_all_defs. }
    split; [eapply wf_mono; [exact (wf_finish names scs n2 (n2 + 2 * k) W2 ltac:(lia))|unfold k; lia]|]. split; [apply tail_puts|].
    intros n σ e Hm. rewrite ev_dowhl, xops_one, xop_while.
    set (P := fun vals σ => lmatch names vals scs σ e).
    assert (P (map e inits) σ) as HP by (by apply lmatch_start).
    set (before := fun vals : list V => xcode n (repl_all (zip inits (seq n2 k)) _) _). set (after := fun vals : list V => xcode n (repl_all (zip inits (seq (n2 + k) k)) _) _).
    assert (agree (ev_do truthy n (fun σ => ev_expr σ c) (eval n b) σ) (while_loop truthy n before after (map e inits)) (fun σ' vals' => P vals' σ')) as HG.
    2:{ destruct (ev_do _ _ _ _ _) as [σ'|]; cbn in HG |- *; [|by rewrite HG]. destruct HG as (vals' & -> & HL). cbn. eexists. split; [done|]. apply (finish names scs n2); [done|lia|done|exact HL]. }
    apply do_match; [| |exact HP].
    - intros vals τ HL. pose proof (proj1 HL) as Lv. fold k in Lv. unfold before. rewrite (repl_zip n nx n2 inits (seq n2 k)); [|lia|exact D1|done| |done|apply NoDup_seq|by rewrite seq_length|by rewrite seq_length].
      2:{ intros p Hp%in_seq_lt. lia. }
      rewrite xcode_mk, xops_app. set (e2 := binds _ inits vals). assert (vmatch (vis scs) τ e2) as Hm2.
      { eapply lmatch_vmatch; [exact Hw|exact Nn|exact Mi| |exact HL]. intros u Hu. apply binds_fresh. intros Hin%in_seq_lt. lia. }
      assert (vmatch (vis (∅ :: scs)) τ e2) as Hm3 by (by rewrite vis_push). assert (vmatch (vis (∅ :: ∅ :: scs)) τ e2) as Hm4 by (by rewrite !vis_push).
      pose proof (Tok_frame _ _ _ _ _ _ n τ e2 Tb Hm4) as HF. destruct (eval n b τ) as [σ'|]; cbn in HF |- *; [|by rewrite HF].
      destruct HF as (e3 & -> & Hv & F). cbn [mbind option_bind]. pose proof (restrict_match _ _ _ _ _ _ Hm3 Hv) as HR. fold ow in HR. rewrite <- V1 in HR.
      destruct (A5 n _ e3 HR) as (e4 & X & F4 & Y). rewrite X. cbn [mbind option_bind]. eexists. split; [done|]. cbn [map]. eexists _, _. split; [done|]. split; [done|].
      assert (map e4 ids = map e3 ids) as ->. { apply map_ext_in. intros u Hu%elem_of_list_In%Hids. apply F4. lia. }
      eapply lmatch_change.
      + apply lmatch_push. eapply branch_match; [exact Hw1|exact Hm3| |exact Hv|exact Dn|exact Hown]. intros u Hu. apply F. lia.
      + intros x v b' Hx Ex. unfold e2. rewrite binds_fresh by (eapply not_init; [exact Hw|exact Mi|exact Ex|exact Hx]). rewrite binds_fresh; [done|]. intros Hin%in_seq_lt. pose proof (wf_vis_lt _ _ _ _ _ Hw Ex). lia.
    - intros vals τ HL. pose proof (proj1 HL) as Lv. fold k in Lv. unfold after. rewrite (repl_zip n n2 n2 inits (seq (n2 + k) k)); [|lia|done| | |done|apply NoDup_seq|by rewrite seq_length|by rewrite seq_length].
      2:{ intros v Hv%Hi. lia. } 2:{ intros p Hp%in_seq_lt. lia. }
      change (Some (map (binds (binds e (seq (n2 + k) k) vals) inits vals) (seq (n2 + k) k)) = Some vals). f_equal. apply binds_params; [done|]. intros v Hv%Hi. lia.
  Qed.
  Lemma ok_for x from to step b scs nx ops scs' nx' : okfor b ->
    wf scs nx -> t_stmt (SFor x from to step b) scs nx = Some (ops, scs', nx') -> Tok scs nx ops scs' nx' (fun n => eval n (SFor x from to step b)).
  Proof.
    intros IHb Hw H. rewrite t_for in H. apply bind_Some in H as ([[oh [[[lo hi] st] dir]] n1] & E1 & H). pose proof (t_bounds_ok _ _ _ _ _ _ _ _ _ _ _ Hw E1) as (A1 & A2 & A3 & A4 & A5 & A6 & A7). cbv zeta in H.
    assert (wf scs n1) as W1 by (eapply wf_mono; [exact Hw|lia]).
    assert (wf ({[x := (n1 + 1, true)]} :: scs) (n1 + 2)) as Wb.
    { apply (wf_put (∅ :: scs) (n1 + 2) x (n1 + 1) true); [eapply wf_mono; [apply wf_push; exact W1|lia]|lia|]. intros i y Hi. destruct (wf_push _ _ W1) as (_ & Hlt & _). specialize (Hlt _ _ _ Hi). lia. }
    apply bind_Some in H as ([[ob scs1] n2] & E2 & H). pose proof (IHb _ _ _ _ _ Wb E2) as Tb. pose proof Tb as (B1 & B2 & B3 & B4 & _). cbn [tail] in B4. destruct (tail_cons _ _ (proj1 B3) B4) as (s1 & ->). rewrite pop_cons in H. set (ow := (pop (s1 :: scs)).1) in H.
    assert (wf scs n2) as W2 by (eapply wf_mono; [exact W1|lia]).
    pose proof (own_names ow (vis scs)) as Hown. set (names := map fst (map_to_list ow)) in *. set (ids := map (fun xi => fst (snd xi)) (map_to_list ow)) in *.
    assert (NoDup names) as Nn by apply names_NoDup. assert (forall x, is_Some (ow !! x) -> x ∈ names) as Dn by (intros y; apply names_dom). clearbody names ids.
    apply bind_Some in H as (inits & Mi%mapM_vis & H). set (code_ := mk _ ids) in H. injection H as <- <- <-. set (k := length names).
    pose proof (inits_NoDup _ _ _ _ Hw Nn Mi) as Ni. pose proof (Forall2_length _ _ _ Mi) as Li. fold k in Li.
    assert (forall v, v ∈ inits -> v < nx) as Hi by (intros v; exact (inits_lt _ _ _ _ v Hw Mi)).
    assert (dcode n1 n2 code_) as D2. { unfold code_. apply dcode_mk. constructor; [cbn; lia|]. eapply dops_mono; [| |exact B2]; lia. }
    split; [lia|]. split.
    { apply Forall_app. split; [eapply dops_mono; [| |exact A2]; lia|]. constructor; [|constructor]. split; [apply rng_seq; lia|]. split; [lia|]. split; [apply rng_seq; lia|]. apply repl_all_defs. eapply dop_mono; [| |exact D2]; lia. }
    split; [eapply wf_mono; [exact (wf_finish names scs n2 (n2 + k) W2 ltac:(lia))|unfold k; lia]|]. split; [apply tail_puts|].
    intros n σ e0 Hm0. rewrite ev_forl. destruct (A7 n σ e0 Hm0) as (e & f & t & s & X & F0 & Yf & Yt & Ys & Il & Ih & Is & Id). rewrite Yf, Yt. cbn [mbind option_bind] in Ys |- *. rewrite Ys. cbn [mbind option_bind].
    rewrite xops_app, X. cbn [mbind option_bind]. rewrite xops_one, xop_for, Il, Ih, Is. destruct (counts_range (int f) (int t) s) as (is & -> & <-). cbn [mbind option_bind].
    assert (vmatch (vis scs) σ e) as Hm by (eapply vmatch_frame; [exact Hw|exact Hm0|]; intros u Hu; apply F0; lia).
    set (P := fun vals σ => lmatch names vals scs σ e).
    assert (P (map e inits) σ) as HP by (by apply lmatch_start).
    set (body := fun (i : Z) (vals : list V) => _).
    assert (agree (ev_for num x (eval n b) (map (fun i => i * Z.sgn s)%Z is) σ) (for_loop body is (map e inits)) (fun σ' vals' => P vals' σ')) as HG.
    2:{ destruct (ev_for _ _ _ _ _) as [σ'|]; cbn in HG |- *; [|by rewrite HG]. destruct HG as (vals' & -> & HL). cbn. eexists. split; [done|]. apply (finish names scs n2); [done|lia|done|exact HL]. }
    apply for_match; [|exact HP].
    intros i vals τ HL. pose proof (proj1 HL) as Lv. fold k in Lv. unfold body. rewrite (repl_zip n n1 n2 inits (seq n2 k)); [|lia|exact D2| | |done|apply NoDup_seq|by rewrite seq_length|by rewrite seq_length].
    2:{ intros v Hv%Hi. lia. } 2:{ intros p Hp%in_seq_lt. lia. }
    unfold code_. rewrite xcode_mk. set (e2 := binds _ inits vals). assert (vmatch (vis scs) τ e2) as Hm2.
    { eapply lmatch_vmatch; [exact Hw|exact Nn|exact Mi| |exact HL]. intros u Hu. rewrite binds_fresh by (intros Hin%in_seq_lt; lia). unfold bind1. rewrite decide_False by lia. done. }
    set (o := IOp (n1 + 1) _ _). change (o :: ob) with ([o] ++ ob). rewrite xops_app. unfold o. rewrite xops_single. cbn [mbind option_bind]. set (e3 := bind1 e2 _ _).
    assert (e2 n1 = num i) as Eiv. { unfold e2. rewrite binds_fresh by (intros Hin%Hi; lia). rewrite binds_fresh by (intros Hin%in_seq_lt; lia). unfold bind1. by rewrite decide_True. }
    assert (e2 dir = e dir) as Edir. { unfold e2. rewrite binds_fresh by (intros Hin%Hi; lia). rewrite binds_fresh by (intros Hin%in_seq_lt; lia). unfold bind1. by rewrite decide_False by lia. }
    assert (e3 (n1 + 1) = num (i * Z.sgn s)) as E3. { unfold e3, bind1. rewrite decide_True by done. cbn [map]. unfold arg. cbn. by rewrite Eiv, Edir, int_num, Id. }
    assert (vmatch (vis scs) τ e3) as Hm3. { eapply vmatch_frame; [exact W1|exact Hm2|]. intros u Hu. unfold e3, bind1. by rewrite decide_False by lia. }
    assert (vmatch (vis ({[x := (n1 + 1, true)]} :: scs)) (upd τ x (num (i * Z.sgn s))) e3) as Hm4.
    { rewrite <- E3. apply (upd_match x (n1 + 1) true (∅ :: scs) τ e3); [done|]. by rewrite vis_push. }
    pose proof (Tok_frame _ _ _ _ _ _ n _ e3 Tb Hm4) as HF. cbv beta. destruct (eval n b (upd τ x (num (i * Z.sgn s)))) as [σ'|]; cbn in HF |- *; [|by rewrite HF].
    destruct HF as (e4 & -> & Hv & F). cbn. eexists. split; [done|]. eapply lmatch_change.
    - eapply branch_match; [exact Hw|exact Hm3| |exact Hv|exact Dn|exact Hown]. intros u Hu. apply F. lia.
    - intros y v b' Hy Ey. pose proof (wf_vis_lt _ _ _ _ _ Hw Ey). unfold e3, bind1 at 1. rewrite decide_False by lia. unfold e2. rewrite binds_fresh by (eapply not_init; [exact Hw|exact Mi|exact Ey|exact Hy]).
      rewrite binds_fresh by (intros Hin%in_seq_lt; lia). unfold bind1. by rewrite decide_False by lia.
  Qed.
  Lemma ok_all : (forall s, okfor s) /\ (forall ss scs nx ops scs' nx', wf scs nx -> t_stmts ss scs nx = Some (ops, scs', nx') -> Tok scs nx ops scs' nx' (fun n => evals n ss)).
  Proof.
    apply stmt_stmts_ind.
    - intros x ex scs nx ops scs' nx'. apply ok_assign.
    - intros ex scs nx ops scs' nx'. apply ok_expr.
    - intros ss IH scs nx ops scs' nx'. by apply ok_block.
    - intros c th IHt el IHe scs nx ops scs' nx'. by apply ok_if.
    - intros c b IH scs nx ops scs' nx'. by apply ok_while.
    - intros b IH c scs nx ops scs' nx'. by apply ok_do.
    - intros x from to step b IH scs nx ops scs' nx'. by apply ok_for.
    - intros scs nx ops scs' nx' Hw [= <- <- <-]. split; [done|]. split; [constructor|]. split; [done|]. split; [done|]. intros n σ e Hm. by exists e.
    - intros s IH1 ss IH2 scs nx ops scs' nx' Hw H. rewrite t_scons in H. apply bind_Some in H as ([[o1 scs1] n1] & E1 & H). apply bind_Some in H as ([[o2 scs2] n2] & E2 & [= <- <- <-]).
      destruct (IH1 _ _ _ _ _ Hw E1) as (A1 & A2 & A3 & A4 & A5). destruct (IH2 _ _ _ _ _ A3 E2) as (B1 & B2 & B3 & B4 & B5).
      split; [lia|]. split; [apply Forall_app; split; [eapply dops_mono; [| |exact A2]; lia|eapply dops_mono; [| |exact B2]; lia]|]. split; [done|]. split; [congruence|].
      intros n σ e Hm. rewrite ev_scons, xops_app. specialize (A5 n σ e Hm). destruct (eval n s σ) as [σ'|]; cbn in A5 |- *; [|by rewrite A5]. destruct A5 as (e1 & -> & Hm1). cbn. by apply B5.
  Qed.
End trp.

(** * The theorems *)
(** The variables a script starts with (its arguments, or the parameters of a function), in the language and in the symbol table *)
Fixpoint given {V} (params : list nat) (args : list V) : store (V := V) :=
  match params, args with x :: ps, v :: vs => upd (given ps vs) x v | _, _ => fun _ => None end.
Definition table (params : list nat) : list scope := puts params (seq 0 (length params)) [∅].
Lemma given_match {V} params (args : list V) : forall e, NoDup params -> length args = length params -> lmatch params args [∅] (given params args) e.
Proof.
  intros e Hn Hl. split; [done|]. revert args Hl Hn. induction params as [|x ps IH]; intros [|v vs] Hl Hn; try done; cbn [given].
  apply NoDup_cons in Hn as [Hx Hn]. cbn in Hl. destruct (IH vs ltac:(lia) Hn) as [H1 H2]. split.
  - intros y [Hy Hy']%not_elem_of_cons. unfold upd. rewrite decide_False by done. by apply H1.
  - intros [|i] y w Hy Hw; cbn in Hy, Hw; unfold upd.
    + injection Hy as ->. injection Hw as ->. by rewrite decide_True.
    + rewrite decide_False; [by eapply H2|]. intros ->. apply Hx. by eapply elem_of_list_lookup_2.
Qed.
Lemma wf_table params : wf (table params) (length params).
Proof.
  apply (wf_puts params [∅] 0). split; [done|]. assert (forall i x v, ~ ent [∅] i x v) as He. { intros [|i] x v (s & b & Hs & Hx); [injection Hs as <-; by apply empty_none in Hx|done]. }
  split; intros; exfalso; by eapply He.
Qed.

(** Whatever variables a script starts with, the translated program computes for every variable that is visible at the end the value the script gives
    it; and it does not finish if the script does not. *)
Theorem C54_translation (V : Type) (int : V -> Z) (num : Z -> V) (truthy : V -> bool) (dflt : V) : (forall z, int (num z) = z) ->
  forall (script : stmts V) (params : list nat) (args : list V) ops scs nx, NoDup params -> length args = length params ->
    t_stmts int num dflt script (table params) (length params) = Some (ops, scs, nx) ->
    forall n e, match evals int num truthy n script (given params args) with
      | Some σ => exists e', xops int num truthy n ops (binds e (seq 0 (length params)) args) = Some e' /\ forall x, σ x = (fun i => e' (fst i)) <$> vis scs !! x
      | None => xops int num truthy n ops (binds e (seq 0 (length params)) args) = None
      end.
Proof.
  intros Hin script params args ops scs nx Hn Hl H n e. pose proof (proj2 (ok_all int num truthy dflt Hin) script _ _ _ _ _ (wf_table params) H) as (_ & _ & _ & _ & HT).
  specialize (HT n (given params args) (binds e (seq 0 (length params)) args)). unfold agree, vmatch in HT. apply HT.
  apply results_match; [done|done|apply NoDup_seq|by rewrite seq_length| |by apply given_match]. intros x v b E. by apply vis_ent in E as ([|i] & s & b' & [= <-] & Hx); apply empty_none in Hx.
Qed.

(** In particular, a variable that is not assigned in a branch or loop body keeps its value, and what [x] is after an if is decided by the
    condition: the two branches do not see each other's assignments. *)
Theorem C54_if_selects (V : Type) (int : V -> Z) (num : Z -> V) (truthy : V -> bool) (dflt : V) : (forall z, int (num z) = z) ->
  forall (c : nat) (th el : stmts V) (params : list nat) (args : list V) ops scs nx vc, NoDup params -> length args = length params ->
    given params args c = Some vc ->
    t_stmts int num dflt (SCons (SIf (EVar c) (SBlock th) (SBlock el)) SNil) (table params) (length params) = Some (ops, scs, nx) ->
    forall n e σ', evals int num truthy n (if truthy vc then th else el) (given params args) = Some σ' ->
    exists e', xops int num truthy n ops (binds e (seq 0 (length params)) args) = Some e' /\
      forall x, x ∈ params -> σ' x = (fun i => e' (fst i)) <$> vis scs !! x.
Proof.
  intros Hin c th el params args ops scs nx vc Hn Hl Hc H n e σ' Hev. pose proof (C54_translation V int num truthy dflt Hin _ params args ops scs nx Hn Hl H n e) as HT.
  rewrite ev_scons, ev_if in HT. cbn [ev_expr] in HT. rewrite Hc in HT. cbn [mbind option_bind] in HT.
  assert ((if truthy vc then eval int num truthy n (SBlock th) (given params args) else eval int num truthy n (SBlock el) (given params args)) = Some (restrict (given params args) σ')) as Hb.
  { destruct (truthy vc); rewrite ev_block, Hev; done. }
  rewrite Hb in HT. cbn [mbind option_bind evals] in HT. destruct HT as (e' & X & HT). exists e'. split; [done|]. intros x Hx. rewrite <- HT. unfold restrict.
  destruct (given_match params args e Hn Hl) as (_ & _ & Hg). apply elem_of_list_lookup in Hx as (i & Hi). destruct (lookup_lt_is_Some_2 args i) as (v & Ev); [apply lookup_lt_Some in Hi; lia|]. by rewrite (Hg i x v Hi Ev).
Qed.

(** The values a for loop runs through: from the first towards the last one, both included, in steps *)
Theorem C54_range f t s z : z ∈ range f t s <-> exists k, (0 <= k)%Z /\ z = (f + k * s)%Z /\ ((0 < s /\ z <= t) \/ (s < 0 /\ t <= z))%Z.
Proof.
  unfold range. split.
  - destruct (decide (0 < s /\ f <= t)%Z) as [[Hs Hft]|H1]; [|destruct (decide (s < 0 /\ t <= f)%Z) as [[Hs Hft]|H2]; [|intros H; by apply not_elem_of_nil in H]].
    + intros (k & -> & Hk%elem_of_seq)%elem_of_list_fmap. exists (Z.of_nat k). split; [lia|]. split; [done|]. left. split; [done|].
      assert (Z.of_nat k <= (t - f) / s)%Z by (pose proof (Z.div_pos (t - f) s ltac:(lia) Hs); lia). pose proof (Z.mul_div_le (t - f) s Hs). nia.
    + intros (k & -> & Hk%elem_of_seq)%elem_of_list_fmap. exists (Z.of_nat k). split; [lia|]. split; [done|]. right. split; [done|].
      assert (Z.of_nat k <= (f - t) / - s)%Z by (pose proof (Z.div_pos (f - t) (- s) ltac:(lia) ltac:(lia)); lia). pose proof (Z.mul_div_le (f - t) (- s) ltac:(lia)). nia.
  - intros (k & Hk & -> & [[Hs Hz]|[Hs Hz]]).
    + rewrite decide_True by nia. apply elem_of_list_fmap. exists (Z.to_nat k). split; [lia|]. apply elem_of_seq. assert (k <= (t - f) / s)%Z by (apply Z.div_le_lower_bound; nia). lia.
    + rewrite decide_False by lia. rewrite decide_True by nia. apply elem_of_list_fmap. exists (Z.to_nat k). split; [lia|]. apply elem_of_seq. assert (k <= (f - t) / - s)%Z by (apply Z.div_le_lower_bound; nia). lia.
Qed.

(** ** Cases that meet the hypotheses *)
Definition zop (g : Z -> Z -> Z) (a b : expr Z) : expr Z := EOp (fun l => g (nth 0 l 0%Z) (nth 1 l 0%Z)) (ECons a (ECons b ENil)).
Definition lit (z : Z) : expr Z := EOp (fun _ => z) ENil.
Definition gtz (a b : Z) : Z := if decide (a > b)%Z then 1%Z else 0%Z.
(** a = 1; while(n > 0) {a = a * n; n = n - 1;} b = a; for(i in 3:1) {if(a > i) {b = b + i; a = 2;} else {t = b; b = t * 10;}} *)
Definition ex_script : stmts Z :=
  SCons (SAssign 0 (lit 1)) (
  SCons (SWhile (zop gtz (EVar 1) (lit 0)) (SBlock (SCons (SAssign 0 (zop Z.mul (EVar 0) (EVar 1))) (SCons (SAssign 1 (zop Z.sub (EVar 1) (lit 1))) SNil)))) (
  SCons (SAssign 2 (EVar 0)) (
  SCons (SFor 3 (lit 3) (lit 1) None (SBlock (SCons (SIf (zop gtz (EVar 0) (EVar 3))
      (SBlock (SCons (SAssign 2 (zop Z.add (EVar 2) (EVar 3))) (SCons (SAssign 0 (lit 2)) SNil)))
      (SBlock (SCons (SAssign 4 (EVar 2)) (SCons (SAssign 2 (zop Z.mul (EVar 4) (lit 10))) SNil)))) SNil))) SNil))).
Definition ex_final (n : nat) (arg : Z) : option (list (option Z)) :=
  match t_stmts id id 0%Z ex_script (table [1]) 1 with
  | Some (ops, scs, _) => match xops id id (fun z => negb (Z.eqb z 0)) n ops (binds (fun _ => 77%Z) [0] [arg]) with Some e => Some (map (fun x => (fun i => e (fst i)) <$> vis scs !! x) [0; 1; 2; 3; 4]) | None => None end
  | None => None end.
Theorem C54_ex : ex_final 20 5 = Some [Some 2%Z; Some 0%Z; Some 1231%Z; None; None] /\ ex_final 3 5 = None.
Proof. split; vm_compute; reflexivity. Qed.
Theorem C54_ex_spec : (σ ← evals id id (fun z => negb (Z.eqb z 0)) 20 ex_script (given [1] [5%Z]); Some (map σ [0; 1; 2; 3; 4])) = Some [Some 2%Z; Some 0%Z; Some 1231%Z; None; None].
Proof. vm_compute. reflexivity. Qed.
Theorem C54_ex_range : range 1 10 4 = [1; 5; 9]%Z /\ range 3 1 (-1) = [3; 2; 1]%Z /\ range 1 3 0 = [].
Proof. split; [|split]; vm_compute; reflexivity. Qed.

(** ** A loop variable is read-only, but not after a nested loop over the same variable: for(i in 1:3) {for(i in 1:2) {} i = 5;} is accepted, although
    for(i in 1:3) {i = 5;} is not *)
Definition ex_inner (b : stmts Z) : stmts Z := SCons (SFor 0 (lit 1) (lit 3) None (SBlock b)) SNil.
Theorem C54_read_only_refuted :
  t_stmts id id 0%Z (ex_inner (SCons (SAssign 0 (lit 5)) SNil)) (table []) 0 = None /\
  exists r, t_stmts id id 0%Z (ex_inner (SCons (SFor 0 (lit 1) (lit 2) None (SBlock SNil)) (SCons (SAssign 0 (lit 5)) SNil))) (table []) 0 = Some r.
Proof. split; [vm_compute; reflexivity|]. eexists. vm_compute. reflexivity. Qed.

Print Assumptions C54_translation.
Print Assumptions C54_if_selects.
Print Assumptions C54_range.
Print Assumptions C54_read_only_refuted.
