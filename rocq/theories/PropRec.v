(** Property C93: recording properties of intermediate results and inserting them later. *)
From stdpp Require Import base numbers list list_numbers.
From Coq Require Import Lia Sorted.
From Verif Require Import CppBase PropRecModel.

(** * Specification *)
Section Spec.
  Context {S : Type}.
  Implicit Types (p : list (op S)) (l : list (item S)).
  (** The matrices among the results of the operations, in the order of the program, without those of casts that only remove properties *)
  Definition mats p : list nat :=
    flat_map (fun o => match o_kind o with Skip => [] | _ => map fst (filter (fun r => is_mat (snd r) = true) (o_res o)) end) p.
  (** Values with their sparsities, up to the first one that has none *)
  Fixpoint until_unknown (sp : nat -> option S) (vs : list nat) : list (nat * S) :=
    match vs with [] => [] | v :: vs => match sp v with Some s => (v, s) :: until_unknown sp vs | None => [] end end.
  (** Which values are given which sparsity *)
  Definition given (file : list (nat * option S)) p : list (nat * S) := map (fun d => (t_val d, t_sp d)) (plan (map snd (isort file)) p).
  (** Running a program: what each operation is applied to.  A cast keeps the contents. *)
  Section Run.
    Context {Val : Type} (F : nat -> list Val -> list Val -> list Val).
    Definition upd (e : nat -> Val) (x : nat) (v : Val) : nat -> Val := fun y => if decide (y = x) then v else e y.
    Fixpoint bind_res (e : nat -> Val) (res : list (nat * vty S)) (vs : list Val) : nat -> Val :=
      match res, vs with (x, _) :: res, v :: vs => bind_res (upd e x v) res vs | _, _ => e end.
    Fixpoint exec (e : nat -> Val) l : list (nat * list Val * list Val) :=
      match l with
      | [] => []
      | IOp o :: l => let a := map e (o_args o) in let b := map e (o_caps o) in (o_tag o, a, b) :: exec (bind_res e (o_res o) (F (o_tag o) a b)) l
      | ICast c v _ :: l => exec (upd e c (e v)) l
      end.
  End Run.
  (** The types of the values that the operations read, with all that is known about sparsity *)
  Fixpoint assoc (x : nat) (d : list (nat * vty S)) : option (vty S) := match d with [] => None | (y, t) :: d => if decide (y = x) then Some t else assoc x d end.
  Definition defs l : list (nat * vty S) := flat_map (fun i => match i with IOp o => o_res o | ICast c _ t => [(c, t)] end) l.
  Definition optys_with (T : nat -> option (vty S)) l : list (nat * list (option (vty S)) * list (option (vty S))) :=
    flat_map (fun i => match i with IOp o => [(o_tag o, map T (o_args o), map T (o_caps o))] | ICast _ _ _ => [] end) l.
  Definition optys l := optys_with (fun x => assoc x (defs l)) l.
  (** Each value has one definition; all values are below [c]. *)
  Definition wf_prog (c : nat) p : Prop :=
    NoDup (map fst (defs (map IOp p))) /\ Forall (fun o => forall x, x ∈ o_args o ++ o_caps o ++ map fst (o_res o) -> x < c) p.
End Spec.

(** * Alignment *)
Section Align.
  Context {S : Type}.
  Implicit Types (p : list (op S)).
  Definition resmats (res : list (nat * vty S)) : list nat := map fst (filter (fun r => is_mat (snd r) = true) res).
  Lemma resmats_cons v t res : resmats ((v, t) :: res) = if is_mat t then v :: resmats res else resmats res.
  Proof. unfold resmats. rewrite filter_cons. cbn. destruct (is_mat t); [by rewrite decide_True|by rewrite decide_False]. Qed.
  Lemma record_results_spec res : forall id, record_results id res = zip (resmats res) (seq id (length (resmats res))).
  Proof.
    induction res as [|[v t] res IH]; intros id; [done|]. rewrite resmats_cons. cbn [record_results]. destruct (is_mat t); [|by rewrite IH].
    cbn. rewrite IH. by replace (Datatypes.S id) with (id + 1) by lia.
  Qed.
  Lemma log_app sp (a b : list (rop S)) : log sp (a ++ b) = log sp a ++ log sp b.
  Proof. induction a as [|[o ids|v id] a IH]; cbn; [done|done|]. by rewrite IH. Qed.
  Lemma log_recs sp rs : log sp (map (fun r => RRec (fst r) (snd r)) rs : list (rop S)) = map (fun r => (snd r, sp (fst r))) rs.
  Proof. induction rs as [|r rs IH]; cbn; [done|]. by rewrite IH. Qed.
  Lemma zip_log sp (vs : list nat) : forall id, map (fun r : nat * nat => (snd r, sp (fst r) : option S)) (zip vs (seq id (length vs))) = zip (seq id (length vs)) (map sp vs).
  Proof. induction vs as [|v vs IH]; intros id; [done|]. cbn. by rewrite IH. Qed.
  Lemma zip_seq_app {A} (xs ys : list A) id : zip (seq id (length (xs ++ ys))) (xs ++ ys) = zip (seq id (length xs)) xs ++ zip (seq (id + length xs) (length ys)) ys.
  Proof. revert id. induction xs as [|x xs IH]; intros id; cbn; [by rewrite Nat.add_0_r|]. rewrite IH. do 4 f_equal. lia. Qed.
  Lemma mats_cons o p : mats (o :: p) = (match o_kind o with Skip => [] | _ => resmats (o_res o) end) ++ mats p.
  Proof. done. Qed.
  Lemma log_record sp p : forall id, log sp (record id p) ≡ₚ zip (seq id (length (mats p))) (map sp (mats p)).
  Proof.
    induction p as [|o p IH]; intros id; [done|]. rewrite mats_cons.
    assert (Hmat : log sp (map (fun r => RRec (fst r) (snd r)) (reverse (record_results id (o_res o))) ++ record (id + length (record_results id (o_res o))) p) ≡ₚ
      zip (seq id (length (resmats (o_res o) ++ mats p))) (map sp (resmats (o_res o) ++ mats p))).
    { rewrite log_app, log_recs, record_results_spec. rewrite map_app.
      assert (El : length (zip (resmats (o_res o)) (seq id (length (resmats (o_res o))))) = length (resmats (o_res o))) by (rewrite zip_with_length_l_eq; [done|by rewrite seq_length]).
      rewrite El. replace (length (resmats (o_res o) ++ mats p)) with (length (map sp (resmats (o_res o)) ++ map sp (mats p))) by (by rewrite !app_length, !map_length).
      rewrite zip_seq_app, !map_length. apply Permutation_app; [|apply IH]. rewrite <- zip_log. apply Permutation_map. apply reverse_Permutation. }
    cbn [record]. destruct (o_kind o); cbn [log]; [exact Hmat|exact Hmat|]. cbn. apply IH.
  Qed.

  Definition klt (a b : nat * option S) : Prop := fst a < fst b.
  Lemma ins_perm x l : ins x l ≡ₚ (x :: l : list (nat * option S)).
  Proof. induction l as [|y l IH]; cbn; [done|]. case_decide; [done|]. rewrite IH. constructor. Qed.
  Lemma isort_perm (l : list (nat * option S)) : isort l ≡ₚ l.
  Proof. induction l as [|x l IH]; cbn; [done|]. by rewrite ins_perm, IH. Qed.
  Lemma ins_sorted x l : StronglySorted klt l -> (forall y, y ∈ l -> fst y <> fst x) -> StronglySorted klt (ins x l).
  Proof.
    induction 1 as [|y l Hs IH Hy]; intros Hne; cbn; [repeat constructor|]. case_decide as Hc.
    - assert (fst y <> fst x) by (apply Hne; left). constructor; [by constructor|]. constructor; [unfold klt; lia|]. eapply Forall_impl; [exact Hy|]. unfold klt. intros z Hz. lia.
    - constructor; [apply IH; intros z Hz; apply Hne; by right|]. rewrite ins_perm. constructor; [unfold klt; lia|done].
  Qed.
  Lemma isort_sorted (l : list (nat * option S)) : NoDup (map fst l) -> StronglySorted klt (isort l).
  Proof.
    induction l as [|x l IH]; cbn; [constructor|]. intros [Hx Hl]%NoDup_cons. apply ins_sorted; [by apply IH|]. intros y Hy E. apply Hx. rewrite <- E.
    rewrite isort_perm in Hy. apply elem_of_list_fmap. by exists y.
  Qed.
  Lemma zip_fst {A} (xs : list A) id : map fst (zip (seq id (length xs)) xs) = seq id (length xs).
  Proof. revert id. induction xs as [|x xs IH]; intros id; cbn; [done|]. by rewrite IH. Qed.
  Lemma zip_snd {A} (xs : list A) id : map snd (zip (seq id (length xs)) xs) = xs.
  Proof. revert id. induction xs as [|x xs IH]; intros id; cbn; [done|]. by rewrite IH. Qed.
  Lemma zip_sorted (xs : list (option S)) id : StronglySorted klt (zip (seq id (length xs)) xs).
  Proof.
    revert id. induction xs as [|x xs IH]; intros id; cbn; constructor; [apply IH|]. apply Forall_forall. intros [k y] Hin. unfold klt. cbn.
    assert (Hk : k ∈ seq (Datatypes.S id) (length xs)) by (rewrite <- (zip_fst xs); apply elem_of_list_fmap; by exists (k, y)). apply elem_of_seq in Hk. lia.
  Qed.
  Lemma sorted_eq (l k : list (nat * option S)) : StronglySorted klt l -> StronglySorted klt k -> l ≡ₚ k -> l = k.
  Proof.
    intros Hl. revert k. induction Hl as [|x l Hl IH Hx]; intros k Hk P.
    - by apply Permutation_nil_l in P.
    - destruct Hk as [|y k Hk Hy]; [by symmetry in P; apply Permutation_nil_cons in P|]. assert (x = y) as ->.
      { assert (Hin : x ∈ y :: k) by (rewrite <- P; left). assert (Hin' : y ∈ x :: l) by (rewrite P; left).
        apply elem_of_cons in Hin as [->|Hin]; [done|]. apply elem_of_cons in Hin' as [->|Hin']; [done|].
        rewrite Forall_forall in Hx, Hy. specialize (Hx y Hin'). specialize (Hy x Hin). unfold klt in *. lia. }
      f_equal. apply IH; [done|]. by apply Permutation_cons_inv in P.
  Qed.
  Lemma plan_none p : forall ps, plan (None :: ps) p = ([] : list (todo S)).
  Proof.
    induction p as [|o p IH]; intros ps; cbn; [done|]. assert (H : forall k, ins_results k (None :: ps) (o_res o) = ([], None :: ps)).
    { intros k. induction (o_res o) as [|[v t] res IHr]; [done|]. cbn. exact IHr. }
    rewrite !H. cbn. rewrite IH. by destruct (o_kind o).
  Qed.
  Lemma plan_nil p : plan [] p = ([] : list (todo S)).
  Proof.
    induction p as [|o p IH]; cbn; [done|]. assert (H : forall k, ins_results k [] (o_res o) = ([], [] : list (option S))).
    { intros k. induction (o_res o) as [|[v t] res IHr]; [done|]. cbn. exact IHr. }
    rewrite !H. cbn. rewrite IH. by destruct (o_kind o).
  Qed.
  Definition gv (d : todo S) : nat * S := (t_val d, t_sp d).
  Lemma ins_results_none k res ps : ins_results k (None :: ps) res = ([] : list (todo S), None :: ps).
  Proof. induction res as [|[v t] res IH]; [done|]. cbn. exact IH. Qed.
  Lemma ins_results_spec sp k rest : forall res,
    map gv (fst (ins_results k (map sp (resmats res) ++ rest) res)) = until_unknown sp (resmats res) /\
    (Forall (fun v => sp v <> None) (resmats res) /\ snd (ins_results k (map sp (resmats res) ++ rest) res) = rest \/
     ~ Forall (fun v => sp v <> None) (resmats res) /\ exists r, snd (ins_results k (map sp (resmats res) ++ rest) res) = None :: r).
  Proof.
    induction res as [|[v t] res IH]; [cbn; split; [done|]; left; split; [constructor|done]|]. rewrite resmats_cons. cbn [ins_results]. destruct (is_mat t) eqn:Et.
    - cbn [map app until_unknown]. destruct (sp v) as [s|] eqn:Es.
      + destruct (ins_results k (map sp (resmats res) ++ rest) res) as [a r]. cbn in *. destruct IH as [IH1 IH2]. split; [by rewrite IH1|].
        rewrite Forall_cons. destruct IH2 as [[H1 H2]|[H1 H2]]; [left|right].
        * split; [|done]. split; [by rewrite Es|done].
        * split; [|done]. intros [_ Hf]. done.
      + rewrite ins_results_none. split; [done|]. right. rewrite Forall_cons. split; [intros [Hf _]; done|by eexists].
    - assert (Hred : match map sp (resmats res) ++ rest with Some s :: ps' => ins_results k (map sp (resmats res) ++ rest) res | _ => ins_results k (map sp (resmats res) ++ rest) res end
                 = ins_results k (map sp (resmats res) ++ rest) res) by (by destruct (map sp (resmats res) ++ rest) as [|[s|] ps']).
      rewrite Hred. exact IH.
  Qed.
  Lemma until_app_known sp a b : Forall (fun v => sp v <> None) a -> until_unknown sp (a ++ b) = until_unknown sp a ++ (until_unknown sp b : list (nat * S)).
  Proof. induction 1 as [|v a Hv _ IH]; cbn; [done|]. destruct (sp v); [by rewrite IH|done]. Qed.
  Lemma until_app_unknown sp a b : ~ Forall (fun v => sp v <> None) a -> until_unknown sp (a ++ b) = (until_unknown sp a : list (nat * S)).
  Proof.
    induction a as [|v a IH]; cbn; [intros H; destruct H; constructor|]. rewrite Forall_cons. intros H. destruct (sp v); [|done]. rewrite IH; [done|]. intros Hf. apply H. done.
  Qed.
  Lemma plan_spec sp p : map gv (plan (map sp (mats p)) p) = until_unknown sp (mats p).
  Proof.
    induction p as [|o p IH]; [done|]. rewrite mats_cons.
    assert (H : forall k, map gv (let (a, ps) := ins_results k (map sp (resmats (o_res o) ++ mats p)) (o_res o) in a ++ plan ps p) = until_unknown sp (resmats (o_res o) ++ mats p)).
    { intros k. rewrite map_app. pose proof (ins_results_spec sp k (map sp (mats p)) (o_res o)) as [H1 H2]. destruct (ins_results k _ _) as [a ps]. cbn in H1, H2.
      rewrite map_app, H1. destruct H2 as [[Hk ->]|[Hk [r ->]]].
      - by rewrite IH, until_app_known.
      - rewrite plan_none, until_app_unknown by done. by rewrite app_nil_r. }
    cbn [plan]. destruct (o_kind o); [apply H|apply H|]. exact IH.
  Qed.
  (** For all programs: in whatever order the file lists the entries, each matrix is given its own sparsity, up to the first one without cells. *)
  Theorem C93_given sp p file : file ≡ₚ log sp (record 1 p) -> given file p = until_unknown sp (mats p).
  Proof.
    intros P. unfold given. rewrite (log_record sp p 1) in P.
    assert (E : isort file = zip (seq 1 (length (map sp (mats p)))) (map sp (mats p))).
    { rewrite map_length. apply sorted_eq.
      - apply isort_sorted. rewrite P. replace (length (mats p)) with (length (map sp (mats p))) by apply map_length. rewrite zip_fst. apply NoDup_seq.
      - replace (length (mats p)) with (length (map sp (mats p))) by apply map_length. apply zip_sorted.
      - by rewrite isort_perm. }
    rewrite E, zip_snd. apply plan_spec.
  Qed.
  Theorem C93_own_sparsity sp p file (q : nat -> S) : file ≡ₚ log sp (record 1 p) -> (forall v, v ∈ mats p -> sp v = Some (q v)) -> given file p = map (fun v => (v, q v)) (mats p).
  Proof.
    intros P H. rewrite (C93_given sp p file P). clear P. induction (mats p) as [|v vs IH]; cbn; [done|]. rewrite (H v) by left. f_equal. apply IH. intros w Hw. apply H. by right.
  Qed.
  (** FAILS after a matrix without cells: none of the following matrices gets its sparsity. *)
  Theorem C93_empty_refuted sp p file a v b : file ≡ₚ log sp (record 1 p) -> mats p = a ++ v :: b -> sp v = None -> forall w s, (w, s) ∈ given file p -> w ∈ a.
  Proof.
    intros P E Hv w s. rewrite (C93_given sp p file P), E. clear -Hv. induction a as [|x a IH]; cbn; [rewrite Hv; by intros ?%elem_of_nil|].
    destruct (sp x); [|by intros ?%elem_of_nil]. intros [Heq|Hin]%elem_of_cons; [injection Heq as -> ->; left|right; by apply IH].
  Qed.
End Align.

(** * What inserting does to the program *)
Section Keep.
  Context {S : Type}.
  Implicit Types (p : list (op S)) (l : list (item S)).
  Definition reads l : list nat := flat_map (fun i => match i with IOp o => o_args o ++ o_caps o | ICast _ v _ => [v] end) l.
  Lemma reads_op o l : reads (IOp o :: l) = o_args o ++ o_caps o ++ reads l.
  Proof. cbn. by rewrite <- app_assoc. Qed.
  Lemma reads_cast c v t l : reads (ICast c v t :: l) = v :: reads l.
  Proof. done. Qed.
  Lemma redirect_arg_in v c : forall args k args', redirect_arg v c k args = inl args' -> v ∈ args /\ forall x, x ∈ args' -> x = c \/ x ∈ args.
  Proof.
    induction args as [|a args IH]; intros k args' E; cbn in E; [done|]. case_decide as Ha.
    - subst a. destruct k as [|k].
      + injection E as <-. split; [left|]. intros x [->|Hx]%elem_of_cons; [by left|right; by right].
      + destruct (redirect_arg v c k args) as [l'|] eqn:E'; [|done]. injection E as <-. destruct (IH _ _ E') as [_ H]. split; [left|].
        intros x [->|Hx]%elem_of_cons; [right; left|]. destruct (H x Hx); [by left|right; by right].
    - destruct (redirect_arg v c k args) as [l'|] eqn:E'; [|done]. injection E as <-. destruct (IH _ _ E') as [Hv H]. split; [by right|].
      intros x [->|Hx]%elem_of_cons; [right; left|]. destruct (H x Hx); [by left|right; by right].
  Qed.
  Lemma redirect_arg_map {B} (e e' : nat -> B) v c : (forall x, x <> c -> e' x = e x) -> e' c = e v -> forall args k args', c ∉ args -> redirect_arg v c k args = inl args' -> map e' args' = map e args.
  Proof.
    intros H Hc. assert (Hm : forall args, c ∉ args -> map e' args = map e args).
    { induction args as [|a args IH]; intros Hn; [done|]. apply not_elem_of_cons in Hn as [Ha Hn]. cbn. rewrite IH by done. by rewrite H by done. }
    induction args as [|a args IH]; intros k args' Hn E; cbn in E; [done|]. apply not_elem_of_cons in Hn as [Ha Hn]. case_decide as Hav.
    - subst a. destruct k as [|k].
      + injection E as <-. cbn. by rewrite Hc, Hm.
      + destruct (redirect_arg v c k args) as [l'|] eqn:E'; [|done]. injection E as <-. cbn. rewrite H by done. by rewrite (IH _ _ Hn E').
    - destruct (redirect_arg v c k args) as [l'|] eqn:E'; [|done]. injection E as <-. cbn. rewrite H by done. by rewrite (IH _ _ Hn E').
  Qed.
  Lemma map_off {B} (e e' : nat -> B) c args : (forall x, x <> c -> e' x = e x) -> c ∉ args -> map e' args = map e args.
  Proof. intros H. induction args as [|a args IH]; intros Hn; [done|]. apply not_elem_of_cons in Hn as [Ha Hn]. cbn. rewrite IH by done. by rewrite H by done. Qed.

  Section Run.
    Context {Val : Type} (F : nat -> list Val -> list Val -> list Val).
    Lemma bind_off (e e' : nat -> Val) c : forall (res : list (nat * vty S)) vs, (forall x, x <> c -> e' x = e x) -> forall x, x <> c -> bind_res e' res vs x = bind_res e res vs x.
    Proof.
      intros res. revert e e'. induction res as [|[y t] res IH]; intros e e' vs H x Hx; cbn; [by apply H|]. destruct vs as [|v vs]; [by apply H|]. apply IH; [|done].
      intros z Hz. unfold upd. case_decide; [done|by apply H].
    Qed.
    Lemma exec_off c l : forall (e e' : nat -> Val), (forall x, x <> c -> e' x = e x) -> c ∉ reads l -> exec F e' l = exec F e l.
    Proof.
      induction l as [|[o|d v t] l IH]; intros e e' H Hn; [done| |].
      - rewrite reads_op in Hn. apply not_elem_of_app in Hn as [Ha Hn]. apply not_elem_of_app in Hn as [Hc Hn]. cbn.
        rewrite (map_off e e' c (o_args o) H Ha), (map_off e e' c (o_caps o) H Hc). f_equal. apply IH; [|done]. by apply bind_off.
      - rewrite reads_cast in Hn. apply not_elem_of_cons in Hn as [Hv Hn]. cbn. apply IH; [|done]. intros x Hx. unfold upd. case_decide; [by apply H|by apply H].
    Qed.
    Lemma exec_cast_after v c s l : forall e : nat -> Val, c ∉ reads l -> exec F e (cast_after v c s l) = exec F e l.
    Proof.
      induction l as [|[o|d w t] l IH]; intros e Hn; [done| |].
      - rewrite reads_op in Hn. apply not_elem_of_app in Hn as [Ha Hn]. apply not_elem_of_app in Hn as [Hc Hn]. cbn [cast_after]. case_decide.
        + cbn. f_equal. apply (exec_off c); [|done]. intros x Hx. unfold upd. by rewrite decide_False.
        + cbn. f_equal. by apply IH.
      - rewrite reads_cast in Hn. apply not_elem_of_cons in Hn as [Hv Hn]. cbn. by apply IH.
    Qed.
    Lemma exec_redirect v c t l : forall k (e : nat -> Val), c ∉ reads l -> exec F e (redirect v c t k l) = exec F e l.
    Proof.
      induction l as [|[o|d w u] l IH]; intros k e Hn; [done| |].
      - rewrite reads_op in Hn. apply not_elem_of_app in Hn as [Ha Hn]. apply not_elem_of_app in Hn as [Hc Hn]. cbn [redirect].
        destruct (o_kind o) eqn:Ek; [cbn; f_equal; by apply IH| |cbn; f_equal; by apply IH].
        destruct (redirect_arg v c k (o_args o)) as [args'|k'] eqn:E; [|cbn; f_equal; by apply IH].
        assert (Hoff : forall x, x <> c -> upd e c (e v) x = e x) by (intros x Hx; unfold upd; by rewrite decide_False).
        cbn [exec o_args o_caps o_tag o_res].
        rewrite (redirect_arg_map e (upd e c (e v)) v c Hoff) with (args := o_args o) (k := k) by (done || (unfold upd; by rewrite decide_True)).
        rewrite (map_off e (upd e c (e v)) c (o_caps o) Hoff Hc). cbn. f_equal. apply (exec_off c); [|done]. by apply bind_off.
      - rewrite reads_cast in Hn. apply not_elem_of_cons in Hn as [Hv Hn]. cbn. by apply IH.
    Qed.
  End Run.

  Lemma assoc_app x (a b : list (nat * vty S)) : assoc x (a ++ b) = match assoc x a with Some t => Some t | None => assoc x b end.
  Proof. induction a as [|[y t] a IH]; cbn; [done|]. by case_decide. Qed.
  Lemma assoc_none x (d : list (nat * vty S)) : x ∉ map fst d -> assoc x d = None.
  Proof. induction d as [|[y t] d IH]; cbn; [done|]. intros [Hy Hd]%not_elem_of_cons. rewrite decide_False by done. by apply IH. Qed.
  Lemma assoc_in x t (d : list (nat * vty S)) : NoDup (map fst d) -> (x, t) ∈ d -> assoc x d = Some t.
  Proof.
    induction d as [|[y u] d IH]; cbn; [by intros _ ?%elem_of_nil|]. intros [Hy Hd]%NoDup_cons [Heq|Hin]%elem_of_cons.
    - injection Heq as -> ->. by rewrite decide_True.
    - rewrite decide_False; [by apply IH|]. intros ->. apply Hy. apply elem_of_list_fmap. by exists (x, t).
  Qed.
  Lemma defs_cast_after v c s l x : x <> c -> assoc x (defs (cast_after v c s l)) = assoc x (defs l).
  Proof.
    intros Hx. induction l as [|[o|d w t] l IH]; [done| |].
    - cbn [cast_after]. case_decide; unfold defs; cbn [flat_map]; rewrite !assoc_app; destruct (assoc x (o_res o)); try done. cbn. by rewrite decide_False.
    - cbn. case_decide; [done|exact IH].
  Qed.
  Lemma defs_redirect v c t l x : forall k, x <> c -> assoc x (defs (redirect v c t k l)) = assoc x (defs l).
  Proof.
    intros k Hx. revert k. induction l as [|[o|d w u] l IH]; intros k; [done| |].
    - cbn [redirect]. assert (Hr : forall k, assoc x (defs (IOp o :: redirect v c t k l)) = assoc x (defs (IOp o :: l))).
      { intros k'. unfold defs. cbn [flat_map]. rewrite !assoc_app. destruct (assoc x (o_res o)); [done|]. apply IH. }
      destruct (o_kind o) eqn:Ek; [apply Hr| |apply Hr]. destruct (redirect_arg v c k (o_args o)); [|apply Hr]. cbn. by rewrite decide_False.
    - cbn. case_decide; [done|apply IH].
  Qed.
  Lemma redirect_defs_c v c t l : forall k, c ∉ map fst (defs l) -> redirect v c t k l = l \/ assoc c (defs (redirect v c t k l)) = Some t.
  Proof.
    induction l as [|[o|d w u] l IH]; intros k Hn; [by left| |].
    - cbn [redirect]. unfold defs in Hn. cbn in Hn. rewrite map_app in Hn. apply not_elem_of_app in Hn as [Ho Hn].
      assert (Hr : forall k, IOp o :: redirect v c t k l = IOp o :: l \/ assoc c (defs (IOp o :: redirect v c t k l)) = Some t).
      { intros k'. destruct (IH k' Hn) as [->|Ht]; [by left|right]. unfold defs. cbn [flat_map]. rewrite assoc_app, (assoc_none c (o_res o) Ho). exact Ht. }
      destruct (o_kind o); [apply Hr| |apply Hr]. destruct (redirect_arg v c k (o_args o)); [|apply Hr]. right. cbn. by rewrite decide_True.
    - cbn in Hn. apply not_elem_of_cons in Hn as [Hd Hn]. cbn [redirect]. destruct (IH k Hn) as [->|Ht]; [by left|right]. cbn. rewrite decide_False by done. exact Ht.
  Qed.
  Lemma optys_off (T T' : nat -> option (vty S)) c l : (forall x, x <> c -> T' x = T x) -> c ∉ reads l -> optys_with T' l = optys_with T l.
  Proof.
    intros H. induction l as [|[o|d v t] l IH]; intros Hn; [done| |].
    - rewrite reads_op in Hn. apply not_elem_of_app in Hn as [Ha Hn]. apply not_elem_of_app in Hn as [Hc Hn]. cbn.
      rewrite (map_off T T' c (o_args o) H Ha), (map_off T T' c (o_caps o) H Hc). f_equal. by apply IH.
    - rewrite reads_cast in Hn. apply not_elem_of_cons in Hn as [Hv Hn]. by apply IH.
  Qed.
  Lemma optys_cast_after (T : nat -> option (vty S)) v c s l : optys_with T (cast_after v c s l) = optys_with T l.
  Proof. induction l as [|[o|d w t] l IH]; [done| |exact IH]. cbn [cast_after]. case_decide; cbn; [done|]. f_equal. exact IH. Qed.
  Lemma optys_redirect (T T' : nat -> option (vty S)) v c t l : forall k, (forall x, x <> c -> T' x = T x) -> T' c = T v -> c ∉ reads l ->
    optys_with T' (redirect v c t k l) = optys_with T l.
  Proof.
    intros k H Hc. revert k. induction l as [|[o|d w u] l IH]; intros k Hn; [done| |].
    - rewrite reads_op in Hn. apply not_elem_of_app in Hn as [Ha Hn]. apply not_elem_of_app in Hn as [Hp Hn]. cbn [redirect].
      assert (Hr : forall k, optys_with T' (IOp o :: redirect v c t k l) = optys_with T (IOp o :: l)).
      { intros k'. cbn. rewrite (map_off T T' c (o_args o) H Ha), (map_off T T' c (o_caps o) H Hp). f_equal. by apply IH. }
      destruct (o_kind o); [apply Hr| |apply Hr]. destruct (redirect_arg v c k (o_args o)) as [args'|] eqn:E; [|apply Hr]. cbn.
      rewrite (redirect_arg_map T T' v c H Hc (o_args o) k args' Ha E), (map_off T T' c (o_caps o) H Hp). f_equal. by apply (optys_off T T' c).
    - rewrite reads_cast in Hn. apply not_elem_of_cons in Hn as [Hv Hn]. by apply IH.
  Qed.
  Definition below (c : nat) l : Prop := (forall x, x ∈ reads l -> x < c) /\ (forall x, x ∈ map fst (defs l) -> x < c).
  Lemma below_cast_after v c s l : v < c -> below c l -> below (c + 1) (cast_after v c s l).
  Proof.
    intros Hv [Hr Hd]. split.
    - intros x. assert (H : x ∈ reads (cast_after v c s l) -> x = v \/ x ∈ reads l).
      { clear. induction l as [|[o|d w t] l IH]; [by right| |].
        - cbn [cast_after]. case_decide; rewrite ?reads_op, ?reads_cast, ?elem_of_app, ?elem_of_cons, ?elem_of_app; [tauto|]. intros [?|[?|?]]; [tauto|tauto|]. destruct IH; tauto.
        - cbn [cast_after]. rewrite !reads_cast, !elem_of_cons. intros [?|?]; [tauto|]. destruct IH; tauto. }
      intros Hx. destruct (H Hx) as [->|Hx']; [lia|]. specialize (Hr x Hx'). lia.
    - intros x. assert (H : x ∈ map fst (defs (cast_after v c s l)) -> x = c \/ x ∈ map fst (defs l)).
      { clear. induction l as [|[o|d w t] l IH]; [by right| |].
        - cbn [cast_after]. case_decide; unfold defs; cbn [flat_map]; rewrite ?map_app, ?elem_of_app; cbn; rewrite ?elem_of_cons, ?elem_of_nil; [tauto|]. intros [?|?]; [tauto|]. destruct IH; tauto.
        - cbn. rewrite !elem_of_cons. intros [?|?]; [tauto|]. destruct IH; tauto. }
      intros Hx. destruct (H Hx) as [->|Hx']; [lia|]. specialize (Hd x Hx'). lia.
  Qed.
  Lemma below_redirect v c t k l : below c l -> below (c + 1) (redirect v c t k l).
  Proof.
    intros [Hr Hd]. split.
    - intros x. assert (H : forall k, x ∈ reads (redirect v c t k l) -> x = c \/ x ∈ reads l).
      { clear. induction l as [|[o|d w u] l IH]; intros k; [by right| |].
        - cbn [redirect]. assert (Hg : forall k, x ∈ reads (IOp o :: redirect v c t k l) -> x = c \/ x ∈ reads (IOp o :: l)).
          { intros k'. rewrite !reads_op, !elem_of_app. intros [?|[?|Hx]]; [tauto|tauto|]. destruct (IH k' Hx); tauto. }
          destruct (o_kind o); [apply Hg| |apply Hg]. destruct (redirect_arg v c k (o_args o)) as [args'|] eqn:E; [|apply Hg].
          destruct (redirect_arg_in _ _ _ _ _ E) as [Hv Ha]. rewrite reads_cast, !reads_op, elem_of_cons, !elem_of_app. cbn [o_args o_caps].
          intros [->|[Hx|?]]; [tauto| |tauto]. destruct (Ha x Hx); tauto.
        - cbn [redirect]. rewrite !reads_cast, !elem_of_cons. intros [?|Hx]; [tauto|]. destruct (IH k Hx); tauto. }
      intros Hx. destruct (H k Hx) as [->|Hx']; [lia|]. specialize (Hr x Hx'). lia.
    - intros x. assert (H : forall k, x ∈ map fst (defs (redirect v c t k l)) -> x = c \/ x ∈ map fst (defs l)).
      { clear. induction l as [|[o|d w u] l IH]; intros k; [by right| |].
        - cbn [redirect]. assert (Hg : forall k, x ∈ map fst (defs (IOp o :: redirect v c t k l)) -> x = c \/ x ∈ map fst (defs (IOp o :: l))).
          { intros k'. unfold defs. cbn [flat_map]. rewrite !map_app, !elem_of_app. intros [?|Hx]; [tauto|]. destruct (IH k' Hx); tauto. }
          destruct (o_kind o); [apply Hg| |apply Hg]. destruct (redirect_arg v c k (o_args o)) as [args'|] eqn:E; [|apply Hg].
          unfold defs. cbn. rewrite elem_of_cons. tauto.
        - cbn. rewrite !elem_of_cons. intros [?|Hx]; [tauto|]. destruct (IH k Hx); tauto. }
      intros Hx. destruct (H k Hx) as [->|Hx']; [lia|]. specialize (Hd x Hx'). lia.
  Qed.
  Lemma fresh_reads c l : below c l -> c ∉ reads l.
  Proof. intros [Hr _] Hc. specialize (Hr c Hc). lia. Qed.
  Lemma fresh_defs c l : below c l -> c ∉ map fst (defs l).
  Proof. intros [_ Hd] Hc. specialize (Hd c Hc). lia. Qed.
  Lemma apply_all ks ds : forall l c, below c l -> Forall (fun d => t_val d < c /\ assoc (t_val d) (defs l) = Some (t_ty d)) ds ->
    optys (fst (fold_left (apply1 ks) ds (l, c))) = optys l /\
    forall Val (F : nat -> list Val -> list Val -> list Val) e, exec F e (fst (fold_left (apply1 ks) ds (l, c))) = exec F e l.
  Proof.
    induction ds as [|d ds IH]; intros l c Hb Hd; [done|]. apply Forall_cons in Hd as [[Hv Ht] Hd]. cbn [fold_left apply1].
    set (l' := match t_kind d with Ctl => cast_after (t_val d) c (t_sp d) l | _ => redirect (t_val d) c (t_ty d) (ks (t_val d)) l end).
    assert (Hl : below (c + 1) l' /\ (forall x, x <> c -> assoc x (defs l') = assoc x (defs l)) /\ optys l' = optys l /\
      forall Val (F : nat -> list Val -> list Val -> list Val) e, exec F e l' = exec F e l).
    { assert (HR : forall k, let l' := redirect (t_val d) c (t_ty d) k l in below (c + 1) l' /\ (forall x, x <> c -> assoc x (defs l') = assoc x (defs l)) /\ optys l' = optys l /\
        forall Val (F : nat -> list Val -> list Val -> list Val) e, exec F e l' = exec F e l).
      { intros k. cbn zeta. split_and!; [by apply below_redirect|intros x Hx; by apply defs_redirect| |intros; apply exec_redirect; by apply fresh_reads].
        destruct (redirect_defs_c (t_val d) c (t_ty d) l k (fresh_defs _ _ Hb)) as [-> | Hc]; [done|]. unfold optys at 1. apply optys_redirect.
        - intros x Hx. by apply defs_redirect.
        - by rewrite Hc, Ht.
        - by apply fresh_reads. }
      unfold l'. destruct (t_kind d); [apply HR| |apply HR]. split_and!; [by apply below_cast_after|intros x Hx; by apply defs_cast_after| |].
      - unfold optys. rewrite optys_cast_after. apply (optys_off _ _ c); [intros x Hx; by apply defs_cast_after|by apply fresh_reads].
      - intros. apply exec_cast_after. by apply fresh_reads. }
    destruct Hl as (Hb' & Ha & Ho & He). destruct (IH l' (c + 1) Hb') as [H1 H2].
    - eapply Forall_impl; [exact Hd|]. cbn. intros d' [Hv' Ht']. split; [lia|]. rewrite Ha by lia. done.
    - split; [by rewrite H1, Ho|]. intros. by rewrite H2, He.
  Qed.
  Lemma ins_results_in k res : forall ps d, d ∈ fst (ins_results k ps res) -> (t_val d, t_ty d) ∈ (res : list (nat * vty S)).
  Proof.
    induction res as [|[v t] res IH]; intros ps d Hd; cbn in Hd; [by apply elem_of_nil in Hd|]. destruct ps as [|[s|] ps]; [right; by eapply IH| |right; by eapply IH].
    destruct (is_mat t); [|right; by eapply IH]. specialize (IH ps d). destruct (ins_results k ps res) as [a r]. cbn in Hd, IH.
    apply elem_of_cons in Hd as [->|Hd]; [left|right; by apply IH].
  Qed.
  Lemma plan_in p : forall ps d, d ∈ plan ps p -> (t_val d, t_ty d) ∈ defs (map IOp p).
  Proof.
    induction p as [|o p IH]; intros ps d Hd; cbn in Hd; [by apply elem_of_nil in Hd|]. unfold defs. cbn [map flat_map]. apply elem_of_app.
    assert (H : forall k, d ∈ (let (a, ps) := ins_results k ps (o_res o) in a ++ plan ps p) -> (t_val d, t_ty d) ∈ o_res o \/ (t_val d, t_ty d) ∈ defs (map IOp p)).
    { intros k Hk. pose proof (ins_results_in k (o_res o) ps d) as Hi. destruct (ins_results k ps (o_res o)) as [a r]. apply elem_of_app in Hk as [Hk|Hk]; [left; by apply Hi|right; by eapply IH]. }
    destruct (o_kind o); [by apply (H Plain)|by apply (H Ctl)|right; by eapply IH].
  Qed.
  Lemma insert_keeps ks c file p : wf_prog c p -> optys (insert_props ks c file p) = optys (map IOp p) /\
    forall Val (F : nat -> list Val -> list Val -> list Val) e, exec F e (insert_props ks c file p) = exec F e (map IOp p).
  Proof.
    intros [Hn Hp]. assert (Hb : below c (map IOp p)).
    { rewrite Forall_forall in Hp. split.
      - intros x Hx. apply elem_of_list_In, in_flat_map in Hx as (i & Hi & Hx). apply in_map_iff in Hi as (o & <- & Ho). apply elem_of_list_In in Hx, Ho. apply (Hp o Ho). rewrite app_assoc. apply elem_of_app. by left.
      - intros x Hx. apply elem_of_list_fmap in Hx as (d & -> & Hd). apply elem_of_list_In, in_flat_map in Hd as (i & Hi & Hd). apply in_map_iff in Hi as (o & <- & Ho).
        apply elem_of_list_In in Hd, Ho. apply (Hp o Ho). rewrite !elem_of_app. right. right. apply elem_of_list_fmap. by exists d. }
    apply apply_all; [done|]. apply Forall_forall. intros d Hd. apply plan_in in Hd. split; [apply (proj2 Hb); apply elem_of_list_fmap; by exists (t_val d, t_ty d)|]. by apply assoc_in.
  Qed.
  (** For all programs, files and ways the operations may compute: with inserted properties each operation is applied to the same arguments. *)
  Theorem C93_same_results {Val} (F : nat -> list Val -> list Val -> list Val) e ks c file p : wf_prog c p -> exec F e (insert_props ks c file p) = exec F e (map IOp p).
  Proof. intros W. by apply insert_keeps. Qed.
  (** FAILS to have any effect: for all programs and files, the types of all values that operations read say the same about sparsity as without the file. *)
  Theorem C93_no_effect_refuted ks c file p : wf_prog c p -> optys (insert_props ks c file p) = optys (map IOp p).
  Proof. intros W. by apply insert_keeps. Qed.
End Keep.

(** * The recorded numbers *)
Definition nonzeros (l : list Z) : nat := length (filter (fun z => z <> 0%Z) l).
Lemma nonzeros_cons x l : nonzeros (x :: l) = (if decide (x <> 0%Z) then 1 else 0) + nonzeros l.
Proof. unfold nonzeros. rewrite filter_cons. by case_decide. Qed.
Lemma count_fold {A} (f : A -> Z) l : forall n, fold_left (fun n c => if decide (f c <> 0%Z) then n + 1 else n) l n = n + nonzeros (map f l).
Proof. induction l as [|x l IH]; intros n; cbn [fold_left map]; [unfold nonzeros; cbn; lia|]. rewrite IH, nonzeros_cons. case_decide; lia. Qed.
Lemma nonzeros_app a b : nonzeros (a ++ b) = nonzeros a + nonzeros b.
Proof. unfold nonzeros. by rewrite filter_app, app_length. Qed.
Theorem C93_dense rows cols get : rec_dense rows cols get = (nonzeros (flat_map (fun r => map (get r) (seq 0 cols)) (seq 0 rows)), rows * cols).
Proof.
  unfold rec_dense. f_equal. assert (H : forall l n, fold_left (fun n r => fold_left (fun n c => if decide (get r c <> 0%Z) then n + 1 else n) (seq 0 cols) n) l n =
    n + nonzeros (flat_map (fun r => map (get r) (seq 0 cols)) l)); [|by rewrite H].
  induction l as [|r l IH]; intros n; cbn [fold_left flat_map]; [unfold nonzeros; cbn; lia|]. rewrite IH, count_fold, nonzeros_app. lia.
Qed.
Lemma rec_csr_counts rows cols values offsets m n : offsets !! 0 = Some m -> offsets !! rows = Some n -> n - m <= length values ->
  rec_csr rows cols values offsets = Ok (nonzeros (take (n - m) values), rows * cols).
Proof.
  intros H0 Hn Hl. unfold rec_csr. rewrite (rd_Ok _ _ _ Hn). cbn [obind]. rewrite (rd_Ok _ _ _ H0). cbn [obind].
  match goal with |- context [forn (n - m) 0 ?f 0] => destruct (forn_inv (fun i k => k = nonzeros (take i values)) (n - m) 0 f 0) as (k & E & HP) end.
  - done.
  - intros i k Hi ->. destruct (lookup_lt_is_Some_2 values i) as [v Hv]; [lia|]. rewrite (rd_Ok _ _ _ Hv). cbn [obind]. eexists. split; [done|].
    change (1 + i) with (S i). rewrite (take_S_r _ _ _ Hv), nonzeros_app, nonzeros_cons. change (nonzeros []) with 0. case_decide; lia.
  - rewrite E. cbn. by rewrite HP.
Qed.
(** The cells of a sparse matrix are values[m..n).  Right for whole matrices, and for all matrices that store no zeros. *)
Theorem C93_sparse rows cols values offsets m n : offsets !! 0 = Some m -> offsets !! rows = Some n -> m <= n <= length values ->
  m = 0 \/ Forall (fun z => z <> 0%Z) values -> rec_csr rows cols values offsets = Ok (nonzeros (take (n - m) (drop m values)), rows * cols).
Proof.
  intros H0 Hn Hl Hc. rewrite (rec_csr_counts _ _ _ _ _ _ H0 Hn) by lia. do 2 f_equal. destruct Hc as [->|Hz]; [done|].
  assert (Hall : forall l, Forall (fun z => z <> 0%Z) l -> nonzeros l = length l).
  { induction 1 as [|x l Hx _ IH]; [done|]. rewrite nonzeros_cons, decide_True by done. cbn. lia. }
  rewrite !Hall by (by repeat first [apply Forall_take|apply Forall_drop]). rewrite !take_length, drop_length. lia.
Qed.
(** FAILS for a view of a matrix that stores zeros: the stored zero of the row before is counted instead of the number of the row. *)
Theorem C93_view_refuted : rec_csr 1 2 [0%Z; 5%Z] [1; 2] = Ok (0, 2) /\ nonzeros (take 1 (drop 1 [0%Z; 5%Z])) = 1.
Proof. done. Qed.

(** A program: a random matrix, a scalar, a sum, a loop over both with two results, and its use *)
Definition ex_prog : list (op nat) :=
  [mkOp Plain 0 [] [] [(0, VTMat None)]; mkOp Plain 1 [0] [] [(1, VTOther)]; mkOp Plain 2 [0; 0] [] [(2, VTMat None)];
   mkOp Ctl 3 [0; 2; 0] [1] [(3, VTMat None); (4, VTMat None)]; mkOp Plain 4 [3; 4] [] [(5, VTOther)]].
Theorem C93_example : wf_prog 6 ex_prog /\ [(2, Some 20); (4, Some 40); (1, Some 10); (3, Some 30)] ≡ₚ log (fun v => [Some 10; None; Some 20; Some 30; Some 40] !!! v) (record 1 ex_prog) /\
  given [(2, Some 20); (4, Some 40); (1, Some 10); (3, Some 30)] ex_prog = [(0, 10); (2, 20); (3, 30); (4, 40)] /\
  insert_props (fun v => 1) 6 [(2, Some 20); (4, Some 40); (1, Some 10); (3, Some 30)] ex_prog =
  [IOp (mkOp Plain 0 [] [] [(0, VTMat None)]); IOp (mkOp Plain 1 [0] [] [(1, VTOther)]); IOp (mkOp Plain 2 [0; 0] [] [(2, VTMat None)]); ICast 6 0 (VTMat None);
   IOp (mkOp Ctl 3 [0; 2; 6] [1] [(3, VTMat None); (4, VTMat None)]); ICast 9 4 (VTMat (Some 40)); ICast 8 3 (VTMat (Some 30)); IOp (mkOp Plain 4 [3; 4] [] [(5, VTOther)])].
Proof.
  split; [|split; [apply (bool_decide_unpack _); vm_compute; done|split; vm_compute; done]]. split; [apply (bool_decide_unpack _); vm_compute; done|]. unfold ex_prog. repeat (apply Forall_cons; split); [..|by apply Forall_nil]; cbn; intros x Hx; repeat (apply elem_of_cons in Hx as [->|Hx]; [lia|]); by apply elem_of_nil in Hx.
Qed.
(** * What recording leaves, and what is inserted *)
Section Inserted.
  Context {S : Type}.
  Implicit Types (p : list (op S)) (l : list (item S)) (t : vty S).
  (** Recording leaves all operations in place: without the recordings, the program is the one before *)
  Theorem C93_record_unchanged id p : omap (fun r => match r with ROp o _ => Some o | RRec _ _ => None end) (record id p) = p.
  Proof.
    revert id. induction p as [|o p IH]; intros id; [done|].
    assert (H : forall rs : list (nat * nat), omap (fun r : rop S => match r with ROp o _ => Some o | RRec _ _ => None end)
      (map (fun r => RRec (fst r) (snd r)) rs ++ record (id + length (record_results id (o_res o))) p) = p).
    { induction rs as [|r rs IHr]; cbn; [apply IH|exact IHr]. }
    cbn [record]. destruct (o_kind o); cbn [omap list_omap]; f_equal; [apply H|apply H|apply IH].
  Qed.
  Lemma cast_after_in v c s l i w t : ICast i w t ∈ cast_after v c s l -> ICast i w t ∈ l \/ w = v /\ t = VTMat (Some s).
  Proof.
    induction l as [|x l IH]; cbn [cast_after]; [by left|]. destruct x as [o|c' v' t'].
    - destruct (decide _).
      + intros [H|[H|H]%elem_of_cons]%elem_of_cons; [discriminate|injection H as -> -> ->; by right|left; by right].
      + intros [H|H]%elem_of_cons; [discriminate|]. destruct (IH H); [left; by right|by right].
    - intros [H|H]%elem_of_cons; [left; rewrite H; left|]. destruct (IH H); [left; by right|by right].
  Qed.
  Lemma redirect_in v c t0 l i w t : forall k, ICast i w t ∈ redirect v c t0 k l -> ICast i w t ∈ l \/ w = v /\ t = t0.
  Proof.
    induction l as [|x l IH]; intros k; cbn [redirect]; [by left|]. destruct x as [o|c' v' t'].
    - assert (G : forall k, ICast i w t ∈ IOp o :: redirect v c t0 k l -> ICast i w t ∈ IOp o :: l \/ w = v /\ t = t0).
      { intros k' [H|H]%elem_of_cons; [discriminate|]. destruct (IH _ H); [left; by right|by right]. }
      destruct (o_kind o); [apply G| |apply G]. destruct (redirect_arg _ _ _ _); [|apply G].
      intros [H|[H|H]%elem_of_cons]%elem_of_cons; [injection H as -> -> ->; by right|discriminate|left; by right].
    - intros [H|H]%elem_of_cons; [left; rewrite H; left|]. destruct (IH _ H); [left; by right|by right].
  Qed.
  Lemma fold_in ks i w t : forall ds (st : list (item S) * nat), ICast i w t ∈ fst (fold_left (apply1 ks) ds st) ->
    ICast i w t ∈ fst st \/ exists d, d ∈ ds /\ w = t_val d /\ (t = t_ty d \/ t = VTMat (Some (t_sp d))).
  Proof.
    induction ds as [|d ds IH]; intros st; cbn [fold_left]; [by left|]. intros H. apply IH in H as [H|(d' & H1 & H2)].
    - destruct st as [l c]. unfold apply1 in H. cbn [fst] in *.
      assert (X : ICast i w t ∈ l \/ w = t_val d /\ (t = t_ty d \/ t = VTMat (Some (t_sp d)))).
      { destruct (t_kind d); [apply redirect_in in H|apply cast_after_in in H|apply redirect_in in H]; tauto. }
      destruct X as [X|X]; [by left|right]. exists d. split; [left|exact X].
    - right. exists d'. split; [by right|exact H2].
  Qed.
  Lemma ins_results_src k d : forall (res : list (nat * vty S)) ps, d ∈ fst (ins_results k ps res) -> (t_val d, t_ty d) ∈ res.
  Proof.
    induction res as [|[v t] res IH]; intros ps; cbn [ins_results]; [by intros ?%elem_of_nil|].
    destruct ps as [|[s|] ps]; [intros H; right; by eapply IH| |intros H; right; by eapply IH].
    destruct (is_mat t); [|intros H; right; by eapply IH]. destruct (ins_results k ps res) as [a r] eqn:E. cbn [fst].
    intros [H|H]%elem_of_cons; [subst d; left|right; apply (IH ps); by rewrite E].
  Qed.
  Lemma plan_src d : forall p ps, d ∈ plan ps p -> exists o, o ∈ p /\ (t_val d, t_ty d) ∈ o_res o.
  Proof.
    induction p as [|o p IH]; intros ps; cbn [plan]; [by intros ?%elem_of_nil|].
    assert (G : forall k, d ∈ (let (a, ps) := ins_results k ps (o_res o) in a ++ plan ps p) -> exists o', o' ∈ o :: p /\ (t_val d, t_ty d) ∈ o_res o').
    { intros k. destruct (ins_results k ps (o_res o)) as [a r] eqn:E. intros [H|H]%elem_of_app.
      - exists o. split; [left|]. apply (ins_results_src k d _ ps). by rewrite E.
      - destruct (IH _ H) as (o' & H1 & H2). exists o'. split; [by right|done]. }
    destruct (o_kind o); [apply G|apply G|]. intros H. destruct (IH _ H) as (o' & H1 & H2). exists o'. split; [by right|done].
  Qed.
  Lemma until_in sp vs w s : (w, s) ∈ until_unknown (S:=S) sp vs -> sp w = Some s.
  Proof.
    induction vs as [|v vs IH]; cbn; [by intros ?%elem_of_nil|]. destruct (sp v) eqn:E; [|by intros ?%elem_of_nil].
    intros [H|H]%elem_of_cons; [injection H as -> ->; done|by apply IH].
  Qed.
  (** Each cast in the program with inserted properties says of its value what the program said before, or the sparsity that this very value had when it was recorded *)
  Theorem C93_inserted sp ks c file p i v t : file ≡ₚ log sp (record 1 p) -> ICast i v t ∈ insert_props ks c file p ->
    (exists o, o ∈ p /\ (v, t) ∈ o_res o) \/ (exists s, sp v = Some s /\ t = VTMat (Some s)).
  Proof.
    intros P H. unfold insert_props in H. apply fold_in in H as [H|(d & H1 & -> & [->| ->])].
    - cbn [fst] in H. apply elem_of_list_fmap in H as (o & H & _). discriminate.
    - left. by apply plan_src in H1.
    - right. exists (t_sp d). split; [|done]. apply (until_in sp (mats p)). rewrite <- (C93_given sp p file P). unfold given.
      apply elem_of_list_fmap. by exists d.
  Qed.
  Lemma cast_after_keeps v c s l x : x ∈ l -> x ∈ cast_after v c s l.
  Proof.
    induction l as [|y l IH]; [done|]. cbn [cast_after]. intros [->|H]%elem_of_cons.
    - destruct y; [destruct (decide _)|]; left.
    - destruct y; [destruct (decide _)|]; [right; by right|right; by apply IH..].
  Qed.
  Lemma redirect_keeps v c t0 l i w t : forall k, ICast i w t ∈ l -> ICast i w t ∈ redirect v c t0 k l.
  Proof.
    induction l as [|y l IH]; intros k; [done|]. cbn [redirect]. intros [H|H]%elem_of_cons.
    - subst y. left.
    - destruct y as [o|]; [|right; by apply IH]. destruct (o_kind o); [right; by apply IH| |right; by apply IH].
      destruct (redirect_arg _ _ _ _); [right; by right|right; by apply IH].
  Qed.
  Definition results l : list nat := flat_map (fun x => match x with IOp o => map fst (o_res o) | ICast _ _ _ => [] end) l.
  Lemma results_cast v c s l : results (cast_after v c s l) = results l.
  Proof. induction l as [|[o|] l IH]; cbn; [done| |done]. destruct (decide _); cbn; [done|]. unfold results in IH. by rewrite IH. Qed.
  Lemma results_redirect v c t0 l : forall k, results (redirect v c t0 k l) = results l.
  Proof.
    unfold results. induction l as [|[o|] l IH]; intros k; cbn [redirect flat_map]; [done| |by rewrite IH].
    destruct (o_kind o); cbn [flat_map]; rewrite ?IH; [done| |done]. destruct (redirect_arg _ _ _ _); cbn [flat_map app o_res]; [done|by rewrite IH].
  Qed.
  Lemma cast_after_has v c s l : v ∈ results l -> ICast c v (VTMat (Some s)) ∈ cast_after v c s l.
  Proof.
    induction l as [|[o|] l IH]; cbn; [by intros ?%elem_of_nil| |intros H; right; by apply IH].
    destruct (decide _) as [|N]; [intros _; right; left|]. intros [H|H]%elem_of_app; [done|right; by apply IH].
  Qed.
  Lemma fold_has ks : forall ds (st : list (item S) * nat) d, d ∈ ds -> t_kind d = Ctl -> t_val d ∈ results (fst st) ->
    exists i, ICast i (t_val d) (VTMat (Some (t_sp d))) ∈ fst (fold_left (apply1 ks) ds st).
  Proof.
    assert (K : forall ds (st : list (item S) * nat) i w t, ICast i w t ∈ fst st -> ICast i w t ∈ fst (fold_left (apply1 ks) ds st)).
    { induction ds as [|d ds IH]; intros [l c] i w t H; cbn [fold_left]; [done|]. apply IH. unfold apply1. cbn [fst] in *.
      destruct (t_kind d); [by apply redirect_keeps|by apply cast_after_keeps|by apply redirect_keeps]. }
    induction ds as [|d0 ds IH]; intros [l c] d H Hk Hr; [by apply elem_of_nil in H|]. cbn [fold_left fst] in *.
    apply elem_of_cons in H as [->|H].
    - exists c. apply K. unfold apply1. rewrite Hk. by apply cast_after_has.
    - apply IH; [done|done|]. unfold apply1. cbn [fst]. destruct (t_kind d0); rewrite ?results_redirect, ?results_cast; done.
  Qed.
  Lemma ins_results_kind k d : forall (res : list (nat * vty S)) ps, d ∈ fst (ins_results k ps res) -> t_kind d = k.
  Proof.
    induction res as [|[v t] res IH]; intros ps; cbn [ins_results]; [by intros ?%elem_of_nil|].
    destruct ps as [|[s|] ps]; [by apply IH| |by apply IH].
    destruct (is_mat t); [|by apply IH]. destruct (ins_results k ps res) as [a r] eqn:E. cbn [fst].
    intros [H|H]%elem_of_cons; [by subst d|apply (IH ps); by rewrite E].
  Qed.
  Lemma plan_kind d : forall p ps, d ∈ plan ps p -> exists o, o ∈ p /\ t_kind d = o_kind o /\ (t_val d, t_ty d) ∈ o_res o.
  Proof.
    induction p as [|o p IH]; intros ps; cbn [plan]; [by intros ?%elem_of_nil|].
    assert (G : forall k, k = o_kind o -> d ∈ (let (a, ps) := ins_results k ps (o_res o) in a ++ plan ps p) ->
      exists o', o' ∈ o :: p /\ t_kind d = o_kind o' /\ (t_val d, t_ty d) ∈ o_res o').
    { intros k Hk. destruct (ins_results k ps (o_res o)) as [a r] eqn:E. intros [H|H]%elem_of_app.
      - exists o. split; [left|]. split; [rewrite <- Hk; apply (ins_results_kind k d (o_res o) ps); by rewrite E|]. apply (ins_results_src k d _ ps). by rewrite E.
      - destruct (IH _ H) as (o' & H1 & H2). exists o'. split; [by right|done]. }
    destruct (o_kind o) eqn:Ek; [by apply G|by apply G|]. intros H. destruct (IH _ H) as (o' & H1 & H2). exists o'. split; [by right|done].
  Qed.
  (** If all matrices have cells, each matrix that a loop or conditional returns is followed by a cast with the sparsity that it had when it was recorded *)
  Theorem C93_all_inserted sp (q : nat -> S) ks c file p o v t : file ≡ₚ log sp (record 1 p) -> (forall v, v ∈ mats p -> sp v = Some (q v)) ->
    NoDup (flat_map (fun o => map fst (o_res o)) p) -> o ∈ p -> o_kind o = Ctl -> (v, t) ∈ o_res o -> is_mat t = true ->
    exists i, ICast i v (VTMat (Some (q v))) ∈ insert_props ks c file p.
  Proof.
    intros P Hq N Ho Hk Hv Ht.
    assert (M : v ∈ mats p).
    { unfold mats. apply elem_of_list_In, in_flat_map. exists o. split; [by apply elem_of_list_In|]. apply elem_of_list_In. rewrite Hk.
      apply elem_of_list_fmap. exists (v, t). split; [done|]. by apply elem_of_list_filter. }
    assert (G : (v, q v) ∈ given file p) by (rewrite (C93_own_sparsity sp p file q P Hq); apply elem_of_list_fmap; by exists v).
    unfold given in G. apply elem_of_list_fmap in G as (d & E & D). injection E as Ev Es. subst v. rewrite Es.
    destruct (plan_kind d p _ D) as (o' & O1 & O2 & O3).
    assert (Eo : o' = o).
    { clear -N Ho Hv O1 O3. induction p as [|x p IH]; [by apply elem_of_nil in Ho|]. cbn in N. apply NoDup_app in N as (_ & N1 & N2).
      assert (In1 : forall y ty, y ∈ p -> (t_val d, ty) ∈ o_res y -> t_val d ∈ flat_map (fun o => map fst (o_res o)) p).
      { intros y ty Hy Hr. apply elem_of_list_In, in_flat_map. exists y. split; [by apply elem_of_list_In|]. apply elem_of_list_In, elem_of_list_fmap. by exists (t_val d, ty). }
      apply elem_of_cons in O1, Ho. destruct O1 as [->|O1], Ho as [->|Ho]; [done|exfalso|exfalso|by apply IH].
      - apply (N1 (t_val d)); [apply elem_of_list_fmap; by exists (t_val d, t_ty d)|by eapply In1].
      - apply (N1 (t_val d)); [apply elem_of_list_fmap; by exists (t_val d, t)|by eapply In1]. }
    subst o'. unfold insert_props. apply fold_has; [done|by rewrite O2|]. cbn [fst]. unfold results.
    apply elem_of_list_In, in_flat_map. exists (IOp o). split; [apply in_map; by apply elem_of_list_In|]. apply elem_of_list_In, elem_of_list_fmap. by exists (t_val d, t).
  Qed.
End Inserted.
Print Assumptions C93_given. Print Assumptions C93_own_sparsity. Print Assumptions C93_empty_refuted. Print Assumptions C93_same_results. Print Assumptions C93_no_effect_refuted. Print Assumptions C93_sparse.
Print Assumptions C93_record_unchanged. Print Assumptions C93_inserted. Print Assumptions C93_all_inserted.
