(** C89. Casts. *)
From stdpp Require Import base numbers list list_numbers.
From Verif Require Import CppBase Mem CSRModel CSRSpec CSRProofs CSRView CSR SparseSpec Reorg CastExprModel.
Local Open Scope nat_scope.

(** * Types *)
(** The only value type of a matrix, scalar or frame with one column *)
Definition single (a : ty) (u : vt) : Prop := a = TM (Some u) \/ a = TS u \/ a = TF [Some u].

(** A cast with a data type and a value type has this type.  A cast with a data type keeps the value type of its argument, and a cast with a value
    type keeps its data type (matrix or scalar; not supported for frames), if its type is known after parsing. *)
Theorem C89_types a0 a u t :
  single a u -> a0 = a \/ a0 = TU ->
  (let* r := parse_type (AsM (Some t)) a0 in infer_cast a r) = Ok (TM (Some t)) /\
  (let* r := parse_type (AsS (Some t)) a0 in infer_cast a r) = Ok (TS t) /\
  (let* r := parse_type (AsM None) a0 in infer_cast a r) = Ok (TM (Some u)) /\
  (let* r := parse_type (AsF None) a0 in infer_cast a r) = Ok (TF [Some u]) /\
  (a0 = a -> (let* r := parse_type (AsS None) a0 in infer_cast a r) = Ok (TS u) /\
             (let* r := parse_type (AsV t) a0 in infer_cast a r) =
               match a with TM _ => Ok (TM (Some t)) | TS _ => Ok (TS t) | _ => Throw end).
Proof. by intros [->|[->| ->]] [->| ->]. Qed.
(** If the type of the argument is not known after parsing, as.<value type>(x) and as.scalar(x) lose what they ask for: the result type remains
    unknown, whatever is found out about the argument. *)
Theorem C89_unknown_refuted t a :
  (let* r := parse_type (AsV t) TU in infer_cast a r) = Ok TU /\ (let* r := parse_type (AsS None) TU in infer_cast a r) = Ok TU.
Proof. done. Qed.
(** as.matrix(x) for a frame with several columns takes the value type of the first column, if it is known after parsing, and is an error
    otherwise; as.frame(x) takes one column. *)
Theorem C89_first_column_refuted u v us :
  (let* r := parse_type (AsM None) (TF (Some u :: v :: us)) in infer_cast (TF (Some u :: v :: us)) r) = Ok (TM (Some u)) /\
  (let* r := parse_type (AsM None) TU in infer_cast (TF (Some u :: v :: us)) r) = Throw /\
  (forall a0, a0 = TU \/ a0 = TF (Some u :: v :: us) -> (let* r := parse_type (AsF None) a0 in infer_cast (TF (Some u :: v :: us)) r) = Ok (TF [Some u])).
Proof. split; [done|]. split; [done|]. by intros a0 [->| ->]. Qed.

(** * How often the argument is evaluated *)
Definition full (g : target) : Prop := exists t, g = AsM (Some t) \/ g = AsF (Some t) \/ g = AsS (Some t).
Theorem C89_once {E} gs (l : list E) : Forall full gs -> cast_effects gs l = l.
Proof.
  induction 1 as [|g gs (t & Hg) _ IH]; [done|]. cbn. rewrite IH. destruct Hg as [->|[->| ->]]; cbn; apply app_nil_r.
Qed.
(** Otherwise it is evaluated twice by each of the nested casts: 2^k times for k casts. *)
Theorem C89_twice_refuted {E} gs (l : list E) : Forall (fun g => ~ full g) gs -> cast_effects gs l = concat (replicate (2 ^ length gs) l).
Proof.
  assert (Hr : forall n m, concat (replicate (n + m) l) = concat (replicate n l) ++ concat (replicate m l)).
  { intros n m. by rewrite replicate_add, concat_app. }
  induction 1 as [|g gs Hg _ IH]; [cbn; by rewrite app_nil_r|].
  assert (visits g = 2) as Hv.
  { destruct g as [[t|]|[t|]|[t|]|t]; try done; exfalso; apply Hg; exists t; eauto. }
  cbn [cast_effects length]. rewrite Hv, IH. cbn [replicate concat]. rewrite app_nil_r, <- Hr. f_equal. f_equal. cbn. lia.
Qed.

(** * Objects *)
Section Objects.
  Context {V L : Type} (conv : vt -> vt -> V -> V) (default : nat -> L) (Hid : forall t v, conv t t v = v).
  Notation obj := (@obj V L).
  Lemma conv_map_id t (vs : list V) : map (conv t t) vs = vs.
  Proof. induction vs as [|v vs IH]; [done|]. cbn. by rewrite Hid, IH. Qed.

  (** Specification: value types and cells of the columns, number of rows, labels *)
  Definition columns (o : obj) : list (vt * list V) :=
    match o with M t _ cols => map (fun c => (t, c)) cols | F _ cols => map (fun c => (snd (fst c), snd c)) cols | Cl t vs => [(t, vs)] end.
  Definition rows (o : obj) : nat := match o with M _ n _ => n | F n _ => n | Cl _ vs => length vs end.
  (** All columns have as many cells as there are rows. *)
  Definition wf (o : obj) : Prop := Forall (fun c => length (snd c) = rows o) (columns o).
  Definition labels (o : obj) : option (list L) := match o with F _ cols => Some (map (fun c => fst (fst c)) cols) | _ => None end.
  Definition is_frame (o : obj) : Prop := labels o <> None.
  (** The value type the result type asks for in a column of type [t]; frames keep it *)
  Definition asked (r : ty) (t : vt) : vt := match r with TM (Some u) | TC (Some u) => u | _ => t end.

  (** A cast that succeeds converts each cell, and nothing else; frames get default labels unless the argument is a frame. *)
  Theorem C89_objects r o o' : wf o -> cast_obj conv default r o = Ok o' ->
    columns o' = map (fun c => (asked r (fst c), map (conv (fst c) (asked r (fst c))) (snd c))) (columns o) /\ rows o' = rows o /\ wf o' /\
    labels o' = match r with TF _ => match labels o with Some l => Some l | None => Some (map default (seq 0 (length (columns o)))) end | _ => None end.
  Proof.
    assert (Hnf : forall n (cs : list (vt * list V)) x, new_frame default n cs = Ok x -> columns x = map (fun c => (fst c, map (conv (fst c) (fst c)) (snd c))) cs /\ rows x = n /\ labels x = Some (map default (seq 0 (length cs)))).
    { intros n cs x. unfold new_frame. destruct cs as [|c0 cs0]; [done|]. remember (c0 :: cs0) as cs eqn:Hcs. clear Hcs. intros E. injection E as <-. cbn. split; [|split; [done|f_equal]].
      - apply list_eq. intros i. rewrite !list_lookup_fmap, list_lookup_imap. destruct (cs !! i) as [[t vs]|]; [|done]. cbn. by rewrite conv_map_id.
      - apply list_eq. intros i. rewrite !list_lookup_fmap, list_lookup_imap.
        destruct (decide (i < length cs)) as [Hi|Hi].
        + destruct (lookup_lt_is_Some_2 cs i Hi) as [c Hc]. rewrite Hc. cbn. destruct (seq 0 (length cs) !! i) as [j|] eqn:Hj; [|apply lookup_ge_None_1 in Hj; rewrite seq_length in Hj; lia]. apply lookup_seq in Hj as [-> _]. done.
        + rewrite (lookup_ge_None_2 cs i) by lia. rewrite (lookup_ge_None_2 (seq 0 (length cs)) i) by (rewrite seq_length; lia). done. }
    assert (Hw : forall (o : obj), wf o -> cast_obj conv default r o = Ok o' ->
      columns o' = map (fun c => (asked r (fst c), map (conv (fst c) (asked r (fst c))) (snd c))) (columns o) -> rows o' = rows o -> wf o').
    { intros o0 Hwf _ Hc Hr. unfold wf in *. rewrite Hc, Hr. rewrite Forall_map. eapply Forall_impl; [exact Hwf|]. intros c Hx. cbn. by rewrite map_length. }
    intros Hwf Hcast. cut (columns o' = map (fun c => (asked r (fst c), map (conv (fst c) (asked r (fst c))) (snd c))) (columns o) /\ rows o' = rows o /\
      labels o' = match r with TF _ => match labels o with Some l => Some l | None => Some (map default (seq 0 (length (columns o)))) end | _ => None end).
    { intros (H1 & H2 & H3). split; [done|]. split; [done|]. split; [by apply (Hw o)|done]. }
    clear Hw. revert Hcast. unfold wf in Hwf.
    destruct r as [[u|]|ts|[u|]|u|], o as [t n cols|n cols|t vs]; cbn -[decide]; try done.
    - intros E. injection E as <-. cbn. rewrite !map_map. done.
    - intros E. injection E as <-. cbn. rewrite !map_map. done.
    - destruct (decide (t = u)) as [->|]; [|done]. intros E. injection E as <-. cbn. by rewrite conv_map_id.
    - intros E. destruct (Hnf _ _ _ E) as (H1 & H2 & H3). rewrite H1, H2, H3. rewrite !map_length. done.
    - destruct (decide _); [|done]. intros E. injection E as <-. cbn. rewrite !map_map. split; [|done].
      apply map_ext. intros c. cbn. by rewrite conv_map_id.
    - intros E. injection E as <-. cbn. by rewrite conv_map_id.
    - destruct (decide (t = u)) as [->|]; [|done]. destruct cols as [|vs [|]]; try done. intros E. injection E as <-. cbn in *. rewrite conv_map_id. apply Forall_inv in Hwf. done.
    - destruct cols as [|[[l t] vs] [|]]; try done. cbn -[decide]. destruct (decide (t = u)) as [->|]; [|done]. intros E. injection E as <-. cbn in *. rewrite conv_map_id. apply Forall_inv in Hwf. done.
    - destruct (decide (t = u)) as [->|]; [|done]. intros E. injection E as <-. cbn. by rewrite conv_map_id.
  Qed.
  (** Which casts succeed *)
  Theorem C89_defined u o :
    (forall t n cols, o = M t n cols -> (exists x, cast_obj conv default (TM (Some u)) o = Ok x) /\ (cols <> [] -> exists x, cast_obj conv default (TF [Some t]) o = Ok x)) /\
    (forall n cols, o = F n cols -> (exists x, cast_obj conv default (TM (Some u)) o = Ok x)) /\
    (forall n c c' cols t, o = F n (c :: c' :: cols) -> cast_obj conv default (TF [Some t]) o = Throw).
  Proof.
    split; [|split].
    - intros t n cols ->. split; [cbn; eauto|]. intros Hne. cbn. unfold new_frame. destruct cols; [done|]. cbn. eauto.
    - intros n cols ->. cbn. eauto.
    - intros n c c' cols t ->. cbn -[decide]. rewrite decide_False; [done|]. intros E. discriminate E.
  Qed.

  (** * Chains *)
  (** If both casts of a chain succeed, the simplified chain gives their result, unless it starts and ends with frames, or starts with a column and
      ends with a matrix of another value type. *)
  Theorem C89_chain b c o x r : wf o -> (forall t vs u, o = Cl t vs -> c = TM (Some u) -> u = t) -> cast_obj conv default b o = Ok x -> cast_obj conv default c x = Ok r -> ~ (is_frame o /\ is_frame r) ->
    cast_chain conv default b c o = Ok r.
  Proof.
    intros Hwf Hcol Hb Hc Hf. unfold cast_chain. destruct (might_lose (type_of o) b) eqn:Hl; [by rewrite Hb|].
    assert (Hb' := C89_objects _ _ _ Hwf Hb). destruct Hb' as (Xc & Xr & Xw & Xl).
    assert (Hc' := C89_objects _ _ _ Xw Hc). destruct Hc' as (Rc & Rr & Rw & Rl).
    destruct o as [t n cols|n cols|t vs]; cbn [type_of] in Hl.
    - destruct b as [|ts|[u|]| |]; try done.
      + (* matrix, frame *) cbn in Hb. unfold new_frame in Hb. destruct cols as [|c0 cols0]; [done|]. remember (c0 :: cols0) as cols eqn:Hcols.
        destruct (map (fun c : list V => (t, c)) cols) as [|p ps] eqn:Hm; [by rewrite Hcols in Hm|]. rewrite <- Hm in Hb. clear Hm p ps. injection Hb as <-.
        destruct c as [[u|]|us|[u|]|u|]; cbn -[decide] in Hc; try done.
        * injection Hc as <-. cbn. f_equal. f_equal. apply list_eq. intros i. rewrite !list_lookup_fmap, list_lookup_imap, list_lookup_fmap. by destruct (cols !! i).
        * destruct (decide _); [|done]. injection Hc as <-. cbn. unfold new_frame. rewrite Hcols. done.
        * rewrite Hcols in *. destruct cols0 as [|]; [|done]. cbn -[decide] in *. unfold f_type in Hc. cbn -[decide] in Hc. destruct (decide _); [|done]. injection Hc as <-. done.
      + (* matrix, column *) cbn in Hl. apply bool_decide_eq_false, dec_stable in Hl. injection Hl as <-. cbn -[decide] in Hb. rewrite decide_True in Hb by done.
        destruct cols as [|vs [|]]; try done. injection Hb as <-. cbn in Xr. subst n.
        destruct c as [[u|]|us|[u|]|u|]; cbn -[decide] in Hc; try done.
        * destruct (decide (t = u)) as [->|]; [|done]. injection Hc as <-. cbn. by rewrite conv_map_id.
        * cbn -[decide]. destruct (decide (t = u)) as [->|]; [|done]. done.
    - destruct b as [[u|]|ts|[u|]| |]; try done.
      + (* frame, matrix *) cbn in Hb. injection Hb as <-. cbn in Hl. apply bool_decide_eq_false, dec_stable in Hl.
        assert (Hty : Forall (fun c => f_type c = u) cols).
        { rewrite Forall_fmap in Hl. eapply Forall_impl; [exact Hl|]. intros y Hy. cbn in Hy. by injection Hy. }
        assert (Hm : map (fun c => map (conv (f_type c) u) (f_vals c)) cols = map f_vals cols).
        { clear -Hty Hid. induction Hty as [|y ys Hy _ IH]; [done|]. cbn. rewrite IH, Hy. by rewrite conv_map_id. }
        destruct c as [[v|]|us|[v|]|v|]; cbn -[decide] in Hc; try done.
        * injection Hc as <-. cbn. f_equal. f_equal. rewrite Hm. clear -Hty. induction Hty as [|y ys Hy _ IH]; [done|]. cbn. by rewrite IH, Hy.
        * exfalso. apply Hf. split; [done|]. unfold is_frame. by rewrite Rl.
        * rewrite Hm in Hc. destruct (decide (u = v)) as [->|]; [|done]. destruct cols as [|y [|]]; try done. cbn in Hc. injection Hc as <-. cbn -[decide].
          rewrite decide_True by (by apply Forall_inv in Hty). done.
      + (* frame, column *) cbn -[decide] in Hb. destruct cols as [|y [|]]; try done. destruct (decide (f_type y = u)) as [Hy|]; [|done]. injection Hb as <-.
        apply Forall_inv in Hwf. cbn in Hwf.
        destruct c as [[v|]|us|[v|]|v|]; cbn -[decide] in Hc; try done.
        * destruct (decide (u = v)) as [->|]; [|done]. injection Hc as <-. cbn. rewrite Hy, conv_map_id. unfold f_vals. by rewrite Hwf.
        * exfalso. apply Hf. split; [done|]. unfold is_frame. by rewrite Rl.
        * destruct (decide (u = v)) as [->|]; [|done]. injection Hc as <-. cbn -[decide]. by rewrite decide_True.
    - destruct b as [[u|]|ts|[u|]| |]; try done.
      + (* column, matrix *) cbn -[decide] in Hb. destruct (decide (t = u)) as [->|]; [|done]. injection Hb as <-.
        destruct c as [[v|]|us|[v|]|v|]; cbn -[decide] in Hc; try done.
        * injection Hc as <-. rewrite (Hcol u vs v) in * by done. cbn -[decide]. rewrite decide_True by done. by rewrite conv_map_id.
        * cbn -[decide]. destruct (decide (u = v)) as [->|]; [|done]. done.
      + (* column, frame *) cbn in Hb. injection Hb as <-. 
        destruct c as [[v|]|us|[v|]|v|]; cbn -[decide] in Hc; try done.
        * injection Hc as <-. rewrite (Hcol t vs v) in * by done. cbn -[decide]. rewrite decide_True by done. unfold f_type, f_vals. cbn. by rewrite conv_map_id.
        * destruct (decide _); [|done]. injection Hc as <-. done.
        * unfold f_type, f_vals in Hc. cbn -[decide] in Hc. cbn -[decide]. destruct (decide (t = v)) as [->|]; [|done]. done.
  Qed.
  (** A frame cast to a matrix and back keeps its labels if its columns have one value type; as separate statements the casts give default labels. *)
  Theorem C89_labels_refuted n l u vs x :
    cast_obj conv default (TM (Some u)) (F n [(l, u, vs)]) = Ok x ->
    cast_obj conv default (TF [Some u]) x = Ok (F n [(default 0, u, vs)]) /\
    cast_chain conv default (TM (Some u)) (TF [Some u]) (F n [(l, u, vs)]) = Ok (F n [(l, u, vs)]).
  Proof.
    intros E. cbn in E. injection E as <-. split.
    - cbn. unfold f_type, f_vals. cbn. by rewrite conv_map_id.
    - unfold cast_chain, type_of, might_lose. cbn -[decide bool_decide]. rewrite bool_decide_false.
      + by rewrite decide_True.
      + intros Hn. apply Hn. by repeat constructor.
  Qed.
  (** A column cast to a matrix and then to a matrix of another value type: there is no kernel for the simplified chain. *)
  Theorem C89_column_refuted t u vs : t <> u ->
    (exists x r, cast_obj conv default (TM (Some t)) (Cl t vs) = Ok x /\ cast_obj conv default (TM (Some u)) x = Ok r) /\
    cast_chain conv default (TM (Some t)) (TM (Some u)) (Cl t vs) = Throw.
  Proof.
    intros Hn. split.
    - cbn -[decide]. rewrite decide_True by done. do 2 eexists. split; [done|]. done.
    - unfold cast_chain, type_of, might_lose. rewrite bool_decide_false by (intros Hx; by apply Hx). cbn -[decide]. by rewrite decide_False.
  Qed.
  (** Chains that end with a scalar: the same, if the scalar is f64 or si64... *)
  Theorem C89_scalar_chain b u o x v : u = F64 \/ u = SI64 -> (forall t vs, o = Cl t vs -> u = t) -> wf o ->
    cast_obj conv default b o = Ok x -> obj_to_scalar conv u x = Ok v -> scalar_chain conv default b u o = Ok v.
  Proof.
    intros Hu Hcol Hwf Hb Hv. unfold scalar_chain. destruct (might_lose (type_of o) b) eqn:Hl; [by rewrite Hb|].
    destruct o as [t n cols|n cols|t vs]; cbn [type_of] in Hl.
    - destruct b as [|ts|[w|]| |]; try done.
      + cbn in Hb. unfold new_frame in Hb. destruct cols as [|c0 [|c1 cols]]; [done| |].
        * injection Hb as <-. cbn -[decide] in Hv. rewrite decide_True in Hv by done. done.
        * injection Hb as <-. cbn -[decide] in Hv. rewrite decide_True in Hv by done. by destruct n as [|[|n]], c0 as [|? [|]].
      + cbn in Hl. apply bool_decide_eq_false, dec_stable in Hl. injection Hl as <-. cbn -[decide] in Hb. rewrite decide_True in Hb by done.
        destruct cols as [|vs [|]]; try done. injection Hb as <-. cbn -[decide] in Hv. destruct (decide _) as [[-> _]|]; [|done].
        apply Forall_inv in Hwf. cbn in Hwf. subst n. destruct vs as [|y [|]]; try done.
    - destruct b as [[w|]|ts|[w|]| |]; try done.
      + cbn in Hl. apply bool_decide_eq_false, dec_stable in Hl. cbn in Hb. injection Hb as <-. cbn -[decide] in Hv. cbn -[decide]. rewrite decide_True by done.
        destruct n as [|[|n]]; try done. destruct cols as [|[[l t] [|y [|]]] [|]]; try done.
        cbn in Hv. cbn in Hl. apply Forall_inv in Hl. cbn in Hl. injection Hl as Hl. unfold f_type in *. cbn in *. subst w. by rewrite Hid in Hv.
      + cbn -[decide] in Hb. destruct cols as [|[[l t] vs] [|]]; try done. unfold f_type, f_vals in *. cbn -[decide] in *. destruct (decide (t = w)) as [->|]; [|done]. injection Hb as <-.
        cbn -[decide] in Hv. destruct (decide _) as [[-> _]|]; [|done]. rewrite decide_True by done. apply Forall_inv in Hwf. cbn in Hwf. subst n. destruct vs as [|y [|]]; done.
    - assert (u = t) as -> by (by eapply Hcol). cbn -[decide]. rewrite decide_True by (split; [done|]; naive_solver).
      destruct b as [[w|]|ts|[w|]| |]; try done.
      + cbn -[decide] in Hb. destruct (decide (t = w)) as [->|]; [|done]. injection Hb as <-. cbn in Hv. by destruct vs as [|y [|]].
      + cbn in Hb. injection Hb as <-. cbn -[decide] in Hv. rewrite decide_True in Hv by done. by destruct vs as [|y [|]].
  Qed.
  (** ... otherwise there is no kernel: as.scalar(as.matrix(f)) for a frame with one cell of another type *)
  Theorem C89_scalar_chain_refuted l t v : t <> F64 -> t <> SI64 ->
    (exists x, cast_obj conv default (TM (Some t)) (F 1 [(l, t, [v])]) = Ok x /\ obj_to_scalar conv t x = Ok v) /\
    scalar_chain conv default (TM (Some t)) t (F 1 [(l, t, [v])]) = Throw.
  Proof.
    intros H1 H2. split.
    - eexists. split; [done|]. cbn. unfold f_type. cbn. by rewrite !Hid.
    - unfold scalar_chain, type_of, might_lose. cbn -[decide bool_decide]. rewrite bool_decide_false.
      + rewrite decide_False; [done|]. intros [?|?]; done.
      + intros Hn. apply Hn. by repeat constructor.
  Qed.
End Objects.

(** * Scalars and objects with one cell *)
Section Scalars.
  Context {V R : Type} `{Val V} `{Val R} (to_res : V -> R) (junk : nat -> list R) (alloc : nat -> nat -> csrbuf R) (Hj : junk_ok junk) (Ha : alloc_ok alloc).

  (** The cell is converted; another shape is an error. *)
  Theorem C89_to_scalar :
    (forall (a : dmat V) x, is_dense a 1 1 x -> dense_to_scalar to_res a = Ok (to_res (x 0 0))) /\
    (forall (a : dmat V), ~ (m_rows a = 1 /\ m_cols a = 1) -> dense_to_scalar to_res a = Throw) /\
    (forall (b : csrbuf V) h x, sparse_cells b h 1 1 x -> to_res vzero = vzero -> csr_to_scalar to_res b h = Ok (to_res (x 0 0))) /\
    (forall (b : csrbuf V) h, ~ (h_rows h = 1 /\ h_cols h = 1) -> csr_to_scalar to_res b h = Throw).
  Proof.
    split; [|split; [|split]].
    - intros a x Hd. pose proof Hd as (Hn & Hm & _). unfold dense_to_scalar. rewrite decide_False by lia. by rewrite (dm_at_Ok a 1 1 x) by (done || lia).
    - intros a Hn. unfold dense_to_scalar. by rewrite decide_True by lia.
    - intros b h x Hs Hz. pose proof Hs as (_ & Hn & Hm & Hx). apply sparse_cells_cell in Hs as (rs & Hs & _ & _ & Hcell).
      destruct (shows_reads b h rs Hs) as (base & [Hlen Hoff Hcols Hvals Hok _ _] & _).
      unfold csr_to_scalar. rewrite decide_False by lia. rewrite (Hoff 0), (Hoff 1) by lia. cbn [obind].
      destruct rs as [|row [|]]; cbn in Hlen; try lia.
      specialize (Hcell 0 0 ltac:(lia) ltac:(lia)). rewrite <- Hcell.
      apply Forall_inv in Hok. rewrite Hm in Hok.
      destruct row as [|[c v] row].
      + rewrite decide_False by (unfold CSRSpec.stored; cbn; lia). cbn. by rewrite Hz.
      + rewrite decide_True by (unfold CSRSpec.stored; cbn; lia). 
        assert (E : bvals b !! (base + 0) = Some v). { rewrite Hvals by (unfold CSRSpec.stored; cbn; lia). done. }
        unfold CSRSpec.stored. cbn [take concat length].
        rewrite (rd_Ok _ _ v) by exact E. cbn [obind]. f_equal. f_equal.
        destruct Hok as [_ Hok]. apply Forall_inv in Hok. cbn in Hok. assert (c = 0) as -> by lia. done.
    - intros b h Hn. unfold csr_to_scalar. by rewrite decide_True by lia.
  Qed.
  Theorem C89_column_to_scalar (vs : list V) : column_to_scalar to_res vs = match vs with [v] => Ok (to_res v) | _ => Throw end.
  Proof. by destruct vs as [|v [|]]. Qed.
  (** A scalar becomes an object with one cell. *)
  Theorem C89_from_scalar (v : V) :
    (exists a, scalar_to_dense to_res junk v = Ok a /\ is_dense a 1 1 (fun _ _ => to_res v)) /\
    (exists b h, scalar_to_csr to_res alloc v = Ok (b, h) /\ sparse_cells b h 1 1 (fun _ _ => if viszero v then vzero else to_res v)).
  Proof.
    split.
    - unfold scalar_to_dense. pose proof (Hj 1) as Hl. destruct (junk 1) as [|x [|]]; try done. cbn. eexists. split; [done|].
      split; [done|]. split; [done|]. split; [done|]. split; [cbn; lia|]. intros [|r] [|c] ? ?; done || lia.
    - unfold scalar_to_csr. destruct (viszero v).
      + destruct (Ha 1 0) as (A1 & A2 & A3). destruct (broff (alloc 1 0)) as [|x [|y [|]]]; try done. cbn. eexists _, _. split; [done|].
        destruct (bvals (alloc 1 0)); [|done]. destruct (bcols (alloc 1 0)); [|done].
        assert (Hc : covers (V:=R) (mkBuf [] [] [0; 0]) (mkH 0 1 1 1 false 0 0) [[]]).
        { split; cbn; try lia. - split; [done|]. by exists [], []. - repeat constructor. }
        split; [exists [[]]; by apply shows_all|]. split; [done|]. split; [done|]. intros [|r] [|c] ? ?; done || lia.
      + destruct (Ha 1 1) as (A1 & A2 & A3). destruct (broff (alloc 1 1)) as [|x [|y [|]]]; try done.
        destruct (bvals (alloc 1 1)) as [|z [|]]; try done. destruct (bcols (alloc 1 1)) as [|w [|]]; try done. cbn. eexists _, _. split; [done|].
        assert (Hc : covers (V:=R) (mkBuf [to_res v] [0] [0; 1]) (mkH 0 1 1 1 false 1 0) [[(0, to_res v)]]).
        { split; cbn; try lia. - split; [done|]. by exists [], []. - repeat constructor. }
        split; [exists [[(0, to_res v)]]; by apply shows_all|]. split; [done|]. split; [done|]. intros [|r] [|c] ? ?; done || lia.
  Qed.
End Scalars.

(** * The cell of a frame *)
Local Open Scope Z_scope.
(** Specification: bytes, sizes, and the number stored in the bytes of a cell *)
Definition bytes (bs : list Z) : Prop := Forall (fun b => 0 <= b < 256) bs.
Definition size (t : vt) : nat := match t with SI8 | UI8 => 1 | SI32 | UI32 | F32 => 4 | SI64 | UI64 | F64 => 8 | STR => 32 end%nat.
Definition value (t : vt) (bs : list Z) : num :=
  match t with
  | UI8 | UI32 | UI64 => Int (le bs)
  | SI8 | SI32 | SI64 => Int (signed (size t) (le bs))
  | _ => Flt bs
  end.
Lemma le_app bs cs : le (bs ++ cs) = le bs + 256 ^ Z.of_nat (length bs) * le cs.
Proof.
  induction bs as [|b bs IH]; [cbn; lia|]. cbn [le app length]. rewrite IH. rewrite Nat2Z.inj_succ, Z.pow_succ_r by lia. nia.
Qed.
Lemma le_bounds bs : bytes bs -> 0 <= le bs < 256 ^ Z.of_nat (length bs).
Proof.
  induction 1 as [|b bs Hb _ IH]; [cbn; lia|]. cbn [le length]. rewrite Nat2Z.inj_succ, Z.pow_succ_r by lia. nia.
Qed.

(** si64 and f64: the value of the cell, whatever follows it in memory *)
Theorem C89_frame_to_scalar t cell rest : t = SI64 \/ t = F64 -> length cell = 8%nat -> frame_to_scalar 1 1 t (cell ++ rest) = Ok (value t cell).
Proof.
  intros Ht Hl. unfold frame_to_scalar, read8. rewrite (decide_False (P := 1%nat <> 1%nat \/ _)) by lia.
  rewrite (decide_True (P := (8 <= _)%nat)) by (rewrite app_length; lia). rewrite take_app_le by lia. rewrite take_ge by lia.
  destruct Ht as [-> | ->]; done.
Qed.
(** ui64: numbers from 2^63 on become negative *)
Theorem C89_frame_ui64_refuted cell rest : bytes cell -> length cell = 8%nat ->
  frame_to_scalar 1 1 UI64 (cell ++ rest) = Ok (Int (if decide (le cell < 2 ^ 63) then le cell else le cell - 2 ^ 64)).
Proof.
  intros Hb Hl. unfold frame_to_scalar, read8. rewrite (decide_False (P := 1%nat <> 1%nat \/ _)) by lia.
  rewrite (decide_True (P := (8 <= _)%nat)) by (rewrite app_length; lia). rewrite take_app_le by lia. rewrite take_ge by lia. done.
Qed.
(** Narrower types: the kernel reads beyond the allocated memory, or takes the bytes that follow as part of the number. *)
Theorem C89_frame_narrow_refuted t cell : (size t < 8)%nat -> bytes cell -> length cell = size t ->
  frame_to_scalar 1 1 t cell = UB /\
  exists rest x, bytes rest /\ frame_to_scalar 1 1 t (cell ++ rest) = Ok x /\ x <> value t cell.
Proof.
  intros Hs Hb Hl. unfold frame_to_scalar, read8. rewrite (decide_False (P := 1%nat <> 1%nat \/ _)) by lia. split.
  - rewrite (decide_False (P := (8 <= _)%nat)) by lia. destruct t; cbn in Hs; try lia; done.
  - exists (replicate (8 - size t) 1). 
    rewrite (decide_True (P := (8 <= _)%nat)) by (rewrite app_length, replicate_length; lia).
    rewrite take_ge by (rewrite app_length, replicate_length; lia).
    pose proof (le_bounds cell Hb) as Hlb. rewrite Hl in Hlb. pose proof (le_app cell (replicate (8 - size t) 1)) as Ha. rewrite Hl in Ha.
    assert (Hr : bytes (replicate (8 - size t) 1)) by (apply Forall_replicate; lia).
    assert (Hlen : length (cell ++ replicate (8 - size t) 1) = 8%nat) by (rewrite app_length, replicate_length; lia).
    revert Ha Hr Hlen. generalize (cell ++ replicate (8 - size t) 1). intros full Ha Hr Hlen.
    destruct t; cbn in Hs; try lia; cbn [code]; (eexists; split; [exact Hr|]; split; [done|]); cbn [value].
    1-4: intros E; injection E as E; revert E; rewrite Ha; cbn in Hlb |- *; unfold signed; cbn; repeat case_decide; lia.
    intros E. injection E as E. apply (f_equal length) in E. rewrite Hlen, Hl in E. cbn in E. lia.
Qed.
(** Only unsigned numbers followed by zeros, or non-negative ones, are right. *)
Theorem C89_frame_zeros t cell : t = UI8 \/ t = UI32 -> bytes cell -> length cell = size t ->
  frame_to_scalar 1 1 t (cell ++ replicate (8 - size t) 0) = Ok (value t cell).
Proof.
  intros Ht Hb Hl. unfold frame_to_scalar, read8. rewrite (decide_False (P := 1%nat <> 1%nat \/ _)) by lia.
  assert (size t <= 8)%nat by (destruct Ht as [-> | ->]; cbn; lia).
  rewrite (decide_True (P := (8 <= _)%nat)) by (rewrite app_length, replicate_length; lia).
  rewrite take_ge by (rewrite app_length, replicate_length; lia).
  pose proof (le_bounds cell Hb) as Hlb. rewrite Hl in Hlb. pose proof (le_app cell (replicate (8 - size t) 0)) as Ha. rewrite Hl in Ha.
  revert Ha. generalize (cell ++ replicate (8 - size t) 0). intros full Ha.
  destruct Ht as [-> | ->]; cbn [code value]; rewrite decide_True by lia; cbn [obind]; rewrite Ha; cbn in Hlb |- *; unfold signed; cbn; case_decide; do 2 f_equal; lia.
Qed.
Theorem C89_frame_error n m t mem : ~ (n = 1%nat /\ m = 1%nat) \/ t = STR -> frame_to_scalar n m t mem = Throw.
Proof.
  intros Hx. unfold frame_to_scalar. case_decide; [done|]. destruct Hx as [Hx| ->]; [lia|]. done.
Qed.

(** * Examples *)
Theorem C89_example :
  cast_effects [AsS None; AsM None] [7%nat] = [7; 7; 7; 7]%nat /\
  (let o := F 2 [(5%nat, SI64, [1; 2]); (6%nat, SI64, [3; 4])] in
   wf o /\ cast_chain (fun _ _ v => v) (fun i => i) (TM (Some SI64)) (TM (Some F64)) o = Ok (M F64 2 [[1; 2]; [3; 4]])) /\
  frame_to_scalar 1 1 SI8 [5; 1; 0; 0; 0; 0; 0; 0] = Ok (Int 261) /\ value SI8 [5] = Int 5 /\ value SI8 [251] = Int (-5).
Proof. repeat split. repeat constructor. Qed.

Print Assumptions C89_chain.
Print Assumptions C89_from_scalar.
Print Assumptions C89_frame_narrow_refuted.
