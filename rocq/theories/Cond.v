(** C88. The conditional expression. *)
From stdpp Require Import base numbers list sorting.
From Verif Require Import CppBase Mem CSRModel CSRSpec CSRProofs CSRAppendProofs CSR CSRView SparseSpec Reorg CondModel.
Local Open Scope nat_scope.

(** * Specification *)
(** A value of value type [vt] that gives a value for each cell of an n x m matrix: a matrix of this shape, or a scalar *)
Definition gives {V} (v : value) (vt n m : nat) (x : nat -> nat -> V) : Prop :=
  (exists a, v = VM vt a /\ is_dense a n m x) \/ (exists s, v = VS vt s /\ forall r c, x r c = s).
(** A matrix that does not have the shape n x m *)
Definition other_shape {V} (v : value) (n m : nat) : Prop := exists vt (a : dmat V), v = VM vt a /\ ~ (m_rows a = n /\ m_cols a = m).
(** The value type of matrices and scalars; frames have none. *)
Definition vtype {V} (v : @value V) : option nat := match v with VM vt _ | VS vt _ => Some vt | VF _ _ => None end.
(** Same kind (matrix, scalar, frame) and same value types *)
Definition same_type {V} (t e : @value V) : Prop :=
  match t, e with VM a _, VM b _ => a = b | VS a _, VS b _ => a = b | VF a _, VF b _ => a = b | _, _ => False end.
(** The zero of the type for what counts as zero *)
Definition stored {V} `{Val V} (v : V) : V := if viszero v then vzero else v.

(** * Dense kernels *)
Section Dense.
  Context {C V : Type} (truth : C -> bool) (junk : nat -> list V) (Hj : junk_ok junk).

  Lemma cells_spec n m f x : (forall r c, r < n -> c < m -> f r c = Ok (x r c)) -> exists a, cells junk n m f = Ok a /\ is_dense a n m x.
  Proof.
    intros Hf. unfold cells. destruct (for2_tabulate n m (fun r c b => let* v := f r c in wr b (r * m + c) v) x (junk (n * m))) as (b & E & T).
    - apply Hj.
    - intros r c b Hr Hc _. by rewrite Hf.
    - rewrite E. cbn [obind]. eexists. split; [done|]. by apply tabulated_is_dense.
  Qed.

  Theorem C88_matrix c t e n m vt z x y :
    is_dense c n m z -> gives t vt n m x -> gives e vt n m y ->
    exists a, cond_op truth junk (CM c) t e = Ok (VM vt a) /\ is_dense a n m (fun r k => if truth (z r k) then x r k else y r k).
  Proof.
    intros Hc Ht He. pose proof Hc as (Hn & Hm & _).
    destruct Ht as [(ta & -> & Ht)|(ts & -> & Ht)], He as [(ea & -> & He)|(es & -> & He)]; unfold cond_op; cbn -[decide];
      rewrite decide_False by (intros Hx; by apply Hx); cbn [obind].
    - pose proof Ht as (Htn & Htm & _). pose proof He as (Hen & Hem & _). unfold cond_mat_mat_mat. rewrite decide_False by (rewrite Hn, Hm; intuition congruence).
      rewrite Hn, Hm. destruct (cells_spec n m (fun r k => let* b := dm_at c r k in if truth b then dm_at ta r k else dm_at ea r k) (fun r k => if truth (z r k) then x r k else y r k)) as (a & E & D).
      + intros r k Hr Hk. rewrite (dm_at_Ok c n m z), (dm_at_Ok ta n m x), (dm_at_Ok ea n m y) by done. cbn [obind]. by destruct (truth _).
      + rewrite E. cbn [obind]. eauto.
    - pose proof Ht as (Htn & Htm & _). unfold cond_mat_mat_sca. rewrite decide_False by (rewrite Hn, Hm; intuition congruence).
      rewrite Hn, Hm. destruct (cells_spec n m (fun r k => let* b := dm_at c r k in if truth b then dm_at ta r k else Ok es) (fun r k => if truth (z r k) then x r k else y r k)) as (a & E & D).
      + intros r k Hr Hk. rewrite (dm_at_Ok c n m z), (dm_at_Ok ta n m x) by done. cbn [obind]. rewrite He. by destruct (truth _).
      + rewrite E. cbn [obind]. eauto.
    - pose proof He as (Hen & Hem & _). unfold cond_mat_sca_mat. rewrite decide_False by (rewrite Hn, Hm; intuition congruence).
      rewrite Hn, Hm. destruct (cells_spec n m (fun r k => let* b := dm_at c r k in if truth b then Ok ts else dm_at ea r k) (fun r k => if truth (z r k) then x r k else y r k)) as (a & E & D).
      + intros r k Hr Hk. rewrite (dm_at_Ok c n m z), (dm_at_Ok ea n m y) by done. cbn [obind]. rewrite Ht. by destruct (truth _).
      + rewrite E. cbn [obind]. eauto.
    - unfold cond_mat_sca_sca.
      rewrite Hn, Hm. destruct (cells_spec n m (fun r k => let* b := dm_at c r k in Ok (if truth b then ts else es)) (fun r k => if truth (z r k) then x r k else y r k)) as (a & E & D).
      + intros r k Hr Hk. rewrite (dm_at_Ok c n m z) by done. cbn [obind]. rewrite Ht, He. by destruct (truth _).
      + rewrite E. cbn [obind]. eauto.
  Qed.

  (** Frames, different value types, and matrices of another shape than the condition are errors. *)
  Theorem C88_matrix_error c t e :
    vtype t = None \/ vtype e = None \/ vtype t <> vtype e \/ other_shape t (m_rows c) (m_cols c) \/ other_shape e (m_rows c) (m_cols c) ->
    cond_op truth junk (CM c) t e = Throw.
  Proof.
    intros Hx. unfold cond_op. destruct t as [vt ta|vt ts|vts tf], e as [ve ea|ve es|ves ef]; cbn -[decide] in *; try done.
    all: destruct (decide (Some vt <> Some ve)) as [|Hv]; [done|]; cbn [obind].
    all: assert (vt = ve) as -> by (destruct (decide (vt = ve)); [done|]; exfalso; apply Hv; congruence).
    - unfold cond_mat_mat_mat. rewrite decide_True; [done|]. destruct Hx as [?|[?|[?|[(v & a & E & N)|(v & a & E & N)]]]]; try done; injection E as -> ->; lia.
    - unfold cond_mat_mat_sca. rewrite decide_True; [done|]. destruct Hx as [?|[?|[?|[(v & a & E & N)|(v & a & E & N)]]]]; try done; injection E as -> ->; lia.
    - unfold cond_mat_sca_mat. rewrite decide_True; [done|]. destruct Hx as [?|[?|[?|[(v & a & E & N)|(v & a & E & N)]]]]; try done; injection E as -> ->; lia.
    - exfalso. destruct Hx as [?|[?|[?|[(v & a & E & N)|(v & a & E & N)]]]]; done.
  Qed.

  (** A scalar condition returns one of the values as it is; they may have different shapes, but not different types. *)
  Theorem C88_scalar c t e : same_type t e -> cond_op truth junk (CS c) t e = Ok (if truth c then t else e).
  Proof.
    intros Hs. unfold cond_op. destruct t, e; cbn in Hs; try done; subst; cbn -[decide]; (rewrite decide_False; [done|intros Hx; by apply Hx]).
  Qed.
  Theorem C88_scalar_error c t e : ~ same_type t e -> cond_op truth junk (CS c) t e = Throw.
  Proof.
    intros Hs. unfold cond_op. destruct t, e; cbn in Hs; cbn -[decide]; (rewrite decide_True; [done|]); congruence.
  Qed.

  (** Both values are evaluated, whatever the condition and the order: all effects happen, and an error in the value that is not chosen is
      an error of the expression. *)
  Theorem C88_both_evaluated o (c : eff cvalue) (t e : eff value) cv tv ev :
    snd c = Ok cv -> snd t = Ok tv -> snd e = Ok ev ->
    snd (cond_expr truth junk o c t e) = cond_op truth junk cv tv ev /\ fst (cond_expr truth junk o c t e) ≡ₚ fst c ++ fst t ++ fst e.
  Proof.
    destruct c as [lc c], t as [lt t], e as [le e]. cbn. intros -> -> ->. unfold cond_expr, ebind.
    destruct o as [|[|[|[|[|o]]]]]; cbn; (split; [done|]); rewrite app_nil_r.
    - done.
    - by rewrite (Permutation_app_comm le lt).
    - by rewrite (Permutation_app_swap_app lt lc le).
    - by rewrite (Permutation_app_comm lc (lt ++ le)), <- app_assoc.
    - by rewrite (Permutation_app_comm le (lc ++ lt)), <- app_assoc.
    - rewrite (Permutation_app_comm le (lt ++ lc)), <- app_assoc. by rewrite (Permutation_app_swap_app lt lc le).
  Qed.
  Theorem C88_lazy_refuted o (c : eff cvalue) (t e : eff value) :
    (exists v, snd c = Ok v) -> (snd t = Throw /\ exists v, snd e = Ok v) \/ (snd e = Throw /\ exists v, snd t = Ok v) \/ (snd t = Throw /\ snd e = Throw) ->
    snd (cond_expr truth junk o c t e) = Throw.
  Proof.
    destruct c as [lc c], t as [lt t], e as [le e]. cbn.
    intros [cv ->] [[-> [ev ->]]|[[-> [tv ->]]|[-> ->]]]; unfold cond_expr, ebind; destruct o as [|[|[|[|[|o]]]]]; done.
  Qed.
End Dense.

(** * Types *)
(** The types inference accepts: with a matrix as condition, matrices and scalars of one value type; the result has the data properties of
    the condition, whatever the values are. *)
Theorem C88_types vc p t e vt :
  (exists q, t = TM vt q) \/ t = TS vt -> (exists q, e = TM vt q) \/ e = TS vt -> infer_cond (TM vc p) t e = Ok (TM vt p).
Proof. intros [[q ->]| ->] [[q' ->]| ->]; cbn -[decide]; (rewrite decide_False; [done|intros Hx; by apply Hx]). Qed.
(** Frames and different value types are compile-time errors then, and so is a frame as condition. *)
Theorem C88_types_error vc p t e :
  (exists vts q l, t = TF vts q l) \/ (exists vts q l, e = TF vts q l) \/ (exists vt ve, vt <> ve /\ ((exists q, t = TM vt q) \/ t = TS vt) /\ ((exists q, e = TM ve q) \/ e = TS ve)) ->
  infer_cond (TM vc p) t e = Throw /\ forall vts q l, infer_cond (TF vts q l) t e = Throw.
Proof.
  intros Hx. split; [|done]. destruct Hx as [(vts & q & l & ->)|[(vts & q & l & ->)|(vt & ve & Hn & Ht & He)]].
  - done.
  - by destruct t.
  - destruct Ht as [[q ->]| ->], He as [[q' ->]| ->]; cbn -[decide]; (rewrite decide_True; [done|congruence]).
Qed.
(** So a condition known as symmetric or sparse makes the result known as symmetric or sparse: a symmetric condition and values that give
    a matrix that is not symmetric *)
Theorem C88_properties_refuted {V} (junk : nat -> list V) (a b : V) : junk_ok junk -> a <> b ->
  exists (c : dmat bool) (t : dmat V) n p x,
    is_dense c n n (fun _ _ => true) /\ p_sym p = Some true /\ p_shape p = Some (n, n) /\ is_dense t n n x /\
    infer_cond (TM 0 p) (TM 1 no_props) (TS 1) = Ok (TM 1 p) /\
    exists res, cond_op (fun b => b) junk (CM c) (VM 1 t) (VS 1 a) = Ok (VM 1 res) /\ is_dense res n n x /\ x 0 1 <> x 1 0.
Proof.
  intros Hj Hab.
  set (x := fun r c : nat => if decide (r < c) then b else a).
  exists (mkDM [true; true; true; true] 0 2 2 2), (mkDM [a; b; a; a] 0 2 2 2), 2, (mkProps (Some (2, 2)) None false (Some true)), x.
  assert (Hc : is_dense (mkDM [true; true; true; true] 0 2 2 2) 2 2 (fun _ _ => true)).
  { repeat split; cbn; try lia. intros [|[|r]] [|[|k]]; intros; done || lia. }
  assert (Ht : is_dense (mkDM [a; b; a; a] 0 2 2 2) 2 2 x).
  { repeat split; cbn; try lia. intros [|[|r]] [|[|k]]; intros; done || lia. }
  split; [done|]. split; [done|]. split; [done|]. split; [done|]. split; [by apply C88_types; [left; eexists|right]|].
  destruct (C88_matrix (fun b : bool => b) junk Hj (mkDM [true; true; true; true] 0 2 2 2) (VM 1 (mkDM [a; b; a; a] 0 2 2 2)) (VS 1 a) 2 2 1 (fun _ _ => true) x (fun _ _ => a)) as (res & E & D).
  - done.
  - left. eauto.
  - right. eauto.
  - exists res. split; [done|]. split; [exact D|]. unfold x. rewrite decide_True, decide_False by lia. congruence.
Qed.
(** With a scalar condition, inference accepts matrices of one value type whatever their shapes... *)
Theorem C88_scalar_types vc vt p q : infer_cond (TS vc) (TM vt p) (TM vt q) = Ok (TM vt no_props).
Proof. cbn -[decide]. rewrite decide_False; [done|]. intros Hx. by apply Hx. Qed.
(** ... but if the type of the condition or of exactly one value is not known after parsing, the expression is compiled only if all known
    properties are the same; if the types are the same after parsing, as for two values of unknown types, it is compiled.  So whether a script
    compiles depends on when and what the compiler finds out about the values. *)
Theorem C88_compile_refuted vc vt p q :
  (forall t0 e0, compile_cond TU t0 e0 (TS vc) (TM vt p) (TM vt q) = if decide (p = q) then Ok true else Throw) /\
  compile_cond (TS vc) TU (TM vt no_props) (TS vc) (TM vt p) (TM vt q) = (if decide (p = q) then Ok true else Throw) /\
  compile_cond (TS vc) (TM vt no_props) TU (TS vc) (TM vt p) (TM vt q) = (if decide (p = q) then Ok true else Throw) /\
  forall t0, compile_cond (TS vc) t0 t0 (TS vc) (TM vt p) (TM vt q) = Ok true.
Proof.
  assert (Hi : infer_cond (TS vc) (TM vt p) (TM vt q) = Ok (TM vt no_props)) by apply C88_scalar_types.
  assert (Hc : canonicalize (TS vc) (TM vt p) (TM vt q) = if decide (p = q) then Ok true else Throw).
  { unfold canonicalize. cbn -[decide]. destruct (decide (p = q)) as [->|Hn].
    - rewrite decide_False; [done|]. intros Hx. by apply Hx.
    - rewrite decide_True by congruence. rewrite decide_False; [done|]. intros [?|?]; done. }
  unfold compile_cond. rewrite Hi. split; [|split; [|split]].
  - intros t0 e0. cbn [canonicalize obind]. exact Hc.
  - unfold canonicalize at 1. cbn -[decide canonicalize]. rewrite decide_True by done. rewrite decide_True by (by left). cbn [obind]. exact Hc.
  - unfold canonicalize at 1. cbn -[decide canonicalize]. rewrite decide_True by done. rewrite decide_True by (by right). cbn [obind]. exact Hc.
  - intros t0. unfold canonicalize at 1. rewrite decide_False; [done|]. intros Hx. by apply Hx.
Qed.
(** For frames, labels are irrelevant and the shape is compared as above. *)
Theorem C88_frames vc vts p q l k :
  infer_cond (TS vc) (TF vts p l) (TF vts q k) = Ok (TF vts no_props None) /\
  forall t0 e0, compile_cond TU t0 e0 (TS vc) (TF vts p l) (TF vts q k) = if decide (p = q) then Ok true else Throw.
Proof.
  assert (Hi : infer_cond (TS vc) (TF vts p l) (TF vts q k) = Ok (TF vts no_props None)).
  { cbn -[decide]. rewrite decide_False; [done|]. intros Hx. by apply Hx. }
  split; [done|]. intros t0 e0. unfold compile_cond. cbn [canonicalize obind]. rewrite Hi. unfold canonicalize. cbn -[decide].
  destruct (decide (p = q)) as [->|Hn].
  - rewrite decide_False; [done|]. intros Hx. by apply Hx.
  - rewrite decide_True by congruence. rewrite decide_False; [done|]. intros [?|?]; done.
Qed.
(** Kinds of values or value types that differ are never compiled if they are known before the expression is replaced. *)
Theorem C88_type_error vc c0 t0 e0 t e :
  plain t <> plain e -> c0 = TU \/ (t0 = TU /\ e0 <> TU) \/ (t0 <> TU /\ e0 = TU) -> compile_cond c0 t0 e0 (TS vc) t e <> Ok true.
Proof.
  intros Hp H0. unfold compile_cond.
  assert (Hi : infer_cond (TS vc) t e = Throw) by (cbn -[decide]; by rewrite decide_True).
  rewrite Hi. destruct c0; cbn -[decide]; try done.
  destruct H0 as [?|[[-> He]|[Ht ->]]]; [done| |].
  - cbn -[decide]. rewrite decide_True by (destruct e0; done). rewrite decide_True by (by left). done.
  - cbn -[decide]. rewrite decide_True by (destruct t0; done). rewrite decide_True by (by right). done.
Qed.
(** Shapes: that of a matrix condition; otherwise what is common to the two values. *)
Theorem C88_shape c t e n m s1 s2 :
  infer_cond_shape c t e = Ok (s1, s2) -> s1 = Some n -> s2 = Some m ->
  (exists vc p, c = TM vc p /\ p_shape p = Some (n, m)) \/ (exists vc, c = TS vc /\ shape_of t = Some (n, m) /\ shape_of e = Some (n, m)).
Proof.
  destruct c as [vc p| |vc|]; cbn; try done.
  - intros E -> ->. injection E as E1 E2. left. exists vc, p. split; [done|]. destruct (p_shape p) as [[? ?]|]; cbn in *; congruence.
  - intros E -> ->. injection E as E1 E2. right. exists vc. split; [done|].
    destruct (shape_of t) as [[a b]|], (shape_of e) as [[a' b']|]; cbn -[decide] in *; try done.
    destruct (decide (a = a')) as [<-|]; [|done]. destruct (decide (b = b')) as [<-|]; [|done]. injection E1 as ->. injection E2 as ->. done.
  - intros E -> ->. done.
Qed.

(** * Sparse kernel *)
Section Sparse.
  Context {C V : Type} `{Val C} `{Val V} (truth : C -> bool) (alloc : nat -> nat -> csrbuf V) (Ha : alloc_ok alloc).

  (** All cells, row by row *)
  Definition row_hist (x : nat -> nat -> V) (lo k r : nat) : list (nat * nat * V) := (fun c => (r, c, x r c)) <$> seq lo k.
  Definition all_hist (x : nat -> nat -> V) (lo k m : nat) : list (nat * nat * V) := concat ((row_hist x 0 m) <$> seq lo k).
  Lemma appends_app b h l1 l2 : csr_appends b h (l1 ++ l2) = let* (b', h') := csr_appends b h l1 in csr_appends b' h' l2.
  Proof.
    revert b h. induction l1 as [|[[r c] v] l1 IH]; intros b h; [done|]. cbn.
    destruct (csr_append b h r c v) as [[b' h']| |]; cbn; [apply IH|done|done].
  Qed.
  Lemma forn_row x k lo r (s : csrbuf V * csrh) : forn k lo (fun c s => csr_append (fst s) (snd s) r c (x r c)) s = csr_appends (fst s) (snd s) (row_hist x lo k r).
  Proof.
    revert lo s. induction k as [|k IH]; intros lo [b h]; [done|]. cbn.
    destruct (csr_append b h r lo (x r lo)) as [[b' h']| |]; cbn; [apply (IH (S lo) (b', h'))|done|done].
  Qed.
  Lemma forn_all x m k lo (s : csrbuf V * csrh) :
    forn k lo (fun r s => forn m 0 (fun c s => csr_append (fst s) (snd s) r c (x r c)) s) s = csr_appends (fst s) (snd s) (all_hist x lo k m).
  Proof.
    revert lo s. induction k as [|k IH]; intros lo [b h]; [done|]. unfold all_hist. cbn [seq fmap list_fmap concat forn]. rewrite appends_app, forn_row. cbn [fst snd].
    destruct (csr_appends b h (row_hist x 0 m lo)) as [[b' h']| |]; cbn; [apply (IH (S lo) (b', h'))|done|done].
  Qed.
  Lemma in_seq_lo j lo k : j ∈ seq lo k <-> lo <= j < lo + k.
  Proof. rewrite elem_of_list_In. apply in_seq. Qed.
  Lemma row_hist_in x lo k r e : e ∈ row_hist x lo k r <-> exists c, lo <= c < lo + k /\ e = (r, c, x r c).
  Proof.
    unfold row_hist. rewrite elem_of_list_fmap. split; intros (c & H1 & H2); exists c.
    - apply in_seq_lo in H2. done.
    - rewrite in_seq_lo. done.
  Qed.
  Lemma all_hist_in x lo k m e : e ∈ all_hist x lo k m <-> exists r c, lo <= r < lo + k /\ c < m /\ e = (r, c, x r c).
  Proof.
    unfold all_hist. rewrite elem_of_list_In, in_concat. split.
    - intros (l & Hl & He). apply elem_of_list_In in Hl, He. apply elem_of_list_fmap in Hl as (r & -> & Hr). apply in_seq_lo in Hr.
      apply row_hist_in in He as (c & Hc & ->). exists r, c. split; [done|]. split; [lia|done].
    - intros (r & c & Hr & Hc & ->). exists (row_hist x 0 m r). split.
      + apply elem_of_list_In, elem_of_list_fmap. exists r. rewrite in_seq_lo. done.
      + apply elem_of_list_In, row_hist_in. exists c. split; [lia|done].
  Qed.
  Lemma sorted_row x lo k r : row_major (row_hist x lo k r).
  Proof.
    revert lo. induction k as [|k IH]; intros lo; [constructor|]. unfold row_hist. cbn. constructor; [apply (IH (S lo))|].
    rewrite Forall_forall. intros [[r' c'] v] Hin. apply (row_hist_in x (S lo) k r) in Hin as (c & Hc & E). injection E as -> -> ->. right. lia.
  Qed.
  Lemma sorted_app l1 l2 : row_major l1 -> row_major l2 -> (forall r c v r' c' v', (r, c, v) ∈ l1 -> (r', c', v') ∈ l2 -> r < r') -> row_major (V:=V) (l1 ++ l2).
  Proof.
    unfold row_major. intros H1 H2 Hx. induction l1 as [|[[r c] v] l1 IH]; [done|]. cbn. inversion H1 as [|? ? Hs Hf]; subst. constructor.
    - apply IH; [done|]. intros r0 c0 v0 r' c' v' Hin. apply (Hx r0 c0 v0). by right.
    - rewrite Forall_app. split; [done|]. rewrite Forall_forall. intros [[r' c'] v'] Hin. left. eapply Hx; [left|exact Hin].
  Qed.
  Lemma sorted_all x m k lo : row_major (all_hist x lo k m).
  Proof.
    revert lo. induction k as [|k IH]; intros lo; [constructor|]. unfold all_hist. cbn [seq fmap list_fmap concat]. apply sorted_app; [apply sorted_row|apply (IH (S lo))|].
    intros r c v r' c' v' Hi1 Hi2. apply row_hist_in in Hi1 as (? & _ & E1). injection E1 as -> -> ->.
    apply (all_hist_in x (S lo) k m) in Hi2 as (r0 & c0 & Hr & _ & E2). injection E2 as -> -> ->. lia.
  Qed.
  Lemma all_hist_length x m k lo : length (all_hist x lo k m) = k * m.
  Proof.
    revert lo. induction k as [|k IH]; intros lo; [done|]. unfold all_hist. cbn [seq fmap list_fmap concat]. rewrite app_length.
    fold (all_hist x (S lo) k m). rewrite IH. unfold row_hist. rewrite fmap_length, seq_length. done.
  Qed.

  Lemma cond_csr_appends cb ch t e n m z x : sparse_cells cb ch n m z -> is_dense t n m x ->
    cond_csr_mat_sca truth alloc cb ch t e = csr_append_all (alloc n (n * m)) (mkH 0 n m n false (n * m) 0) (all_hist (fun r c => if truth (z r c) then x r c else e) 0 n m).
  Proof.
    intros (_ & Hn & Hm & Hz) Ht. pose proof Ht as (Htn & Htm & _). unfold cond_csr_mat_sca. rewrite Hn, Hm. rewrite decide_False by (intuition congruence).
    unfold csr_append_all. destruct (csr_prepareAppend _ _) as [[b1 h1]| |]; cbn [obind]; [|done|done].
    unfold for2, for_up. rewrite Nat.sub_0_r.
    rewrite (forn_ext n 0 _ (fun r s => forn m 0 (fun c s => csr_append (fst s) (snd s) r c (if truth (z r c) then x r c else e)) s)).
    - rewrite (forn_all (fun r c => if truth (z r c) then x r c else e)). cbn [fst snd]. destruct (csr_appends _ _ _) as [[b2 h2]| |]; done.
    - intros r s Hr. rewrite Nat.sub_0_r. apply forn_ext. intros c s' Hc. rewrite Hz by lia. cbn [obind]. rewrite (dm_at_Ok t n m x) by (done || lia).
      by destruct (truth (z r c)).
  Qed.

  Theorem C88_sparse cb ch t e n m z x : 0 < n -> sparse_cells cb ch n m z -> is_dense t n m x ->
    exists b h, cond_csr_mat_sca truth alloc cb ch t e = Ok (b, h) /\ sparse_cells b h n m (fun r c => stored (if truth (z r c) then x r c else e)).
  Proof.
    intros Hn Hz Hx. rewrite (cond_csr_appends cb ch t e n m z x Hz Hx). set (y := fun r c => if truth (z r c) then x r c else e).
    destruct (C12_append_builds n m (n * m) (alloc n (n * m)) (mkH 0 n m n false (n * m) 0) (all_hist y 0 n m)) as (b & h & E & Hcov & Hnz & Ho & Hr & Hc & Hg & Hgz).
    - destruct (Ha n (n * m)) as (A1 & A2 & A3). done.
    - done.
    - apply sorted_all.
    - unfold in_range. rewrite Forall_forall. intros [[r c] v] Hin. apply all_hist_in in Hin as (r' & c' & Hr & Hc & E). injection E as -> -> ->. lia.
    - unfold nonzeros. etrans; [apply filter_length|]. by rewrite all_hist_length.
    - exists b, h. split; [done|]. split; [|split; [done|split; [done|]]].
      + exists (appended (all_hist y 0 n m) n). apply shows_all; [done|done|]. unfold appended. by rewrite Hr, fmap_length, seq_length.
      + intros r c Hr' Hc'. unfold stored. fold (y r c). destruct (viszero (y r c)) eqn:Ez.
        * apply Hgz; [done|done|]. intros v Hin. apply all_hist_in in Hin as (r0 & c0 & _ & _ & E0). injection E0 as -> -> ->. done.
        * apply Hg; [|done]. apply all_hist_in. exists r, c. split; [lia|done].
  Qed.
  (** A condition without rows: the result is written outside of its arrays. *)
  Theorem C88_sparse_empty_refuted cb ch t e m z x : sparse_cells cb ch 0 m z -> is_dense t 0 m x -> cond_csr_mat_sca truth alloc cb ch t e = UB.
  Proof.
    intros Hz Hx. rewrite (cond_csr_appends cb ch t e 0 m z x Hz Hx). apply (C12_empty_matrix_refuted m 0). destruct (Ha 0 (0 * m)) as (A1 & A2 & A3). done.
  Qed.
  Theorem C88_sparse_error cb ch t e : ~ (m_rows t = h_rows ch /\ m_cols t = h_cols ch) -> cond_csr_mat_sca truth alloc cb ch t e = Throw.
  Proof. intros Hs. unfold cond_csr_mat_sca. rewrite decide_True by lia. done. Qed.
End Sparse.

(** * Example: [1, 0; 0, -2] ? [1, 2; 3, 4] : 0, a scalar condition, and an error in the value that is not chosen *)
Definition ex_junk : nat -> list nat := fun k => replicate k 77.
Theorem C88_example :
  junk_ok ex_junk /\
  cond_op (fun c : Z => bool_decide (c <> 0%Z)) ex_junk (CM (mkDM [1; 0; 0; -2]%Z 0 2 2 2)) (VM 1 (mkDM [1; 2; 3; 4] 0 2 2 2)) (VS 1 0) = Ok (VM 1 (mkDM [1; 0; 0; 4] 0 2 2 2)) /\
  cond_op (fun c : Z => bool_decide (c <> 0%Z)) ex_junk (CM (mkDM [1; 0; 0; -2]%Z 0 2 2 2)) (VS 1 5) (VM 1 (mkDM [9; 8; 7; 6; 5; 4] 0 2 2 3)) = Ok (VM 1 (mkDM [5; 8; 6; 5] 0 2 2 2)) /\
  cond_op (fun c : Z => bool_decide (c <> 0%Z)) ex_junk (CS 3%Z) (VM 1 (mkDM [1] 0 1 1 1)) (VM 1 (mkDM [1; 2] 0 1 2 2)) = Ok (VM 1 (mkDM [1] 0 1 1 1)) /\
  cond_expr (fun c : Z => bool_decide (c <> 0%Z)) ex_junk 0 ([1], Ok (CS 3%Z)) ([2], Ok (VS 1 5)) ([3], Throw) = ([1; 2; 3], Throw).
Proof. split; [intros k; apply replicate_length|]. repeat split. Qed.

Print Assumptions C88_matrix.
Print Assumptions C88_sparse.
Print Assumptions C88_compile_refuted.
