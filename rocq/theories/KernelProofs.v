(** Proofs about the choice of kernels. *)
From stdpp Require Import base numbers list.
From Coq Require Import ZArith Lia.
From Verif Require Import CppBase CsvModel Csv KernelModel KernelSpec.

(** * Types *)
Lemma normalize_false t : forall k, normalize false t = Ok k <-> agrees t k.
Proof.
  induction t as [v|v r i|cs i|v i|t IH|v s| |]; intros k; cbn [normalize].
  - split; [intros [= <-]; constructor|intros H; inversion H; reflexivity].
  - split; [intros [= <-]; constructor|intros H; inversion H; reflexivity].
  - split; [intros [= <-]; constructor|intros H; inversion H; reflexivity].
  - split; [intros [= <-]; constructor|intros H; inversion H; reflexivity].
  - split.
    + intros H. destruct (normalize false t) as [t'| |] eqn:E; [|discriminate H|discriminate H]. cbn [obind] in H. injection H as <-. constructor. apply IH. reflexivity.
    + intros H. inversion H as [| | | |? k' H'| | | |]; subst. apply IH in H'. rewrite H'. reflexivity.
  - destruct s as [|a [|b [|c s]]]; cbn [length].
    + split; [discriminate|intros H; inversion H].
    + split; [intros [= <-]; constructor|intros H; inversion H; reflexivity].
    + split; [intros [= <-]; constructor|intros H; inversion H; reflexivity].
    + split; [discriminate|intros H; inversion H].
  - split; [intros [= <-]; constructor|intros H; inversion H; reflexivity].
  - split; [intros [= <-]; constructor|intros H; inversion H; reflexivity].
Qed.
Lemma normalize_no_ub gen t : normalize gen t <> UB.
Proof.
  induction t as [v|v r i|cs i|v i|t IH|v s| |]; cbn [normalize]; try discriminate.
  - destruct gen; [discriminate|]. destruct (normalize false t); [discriminate|discriminate|contradiction].
  - destruct (length s) as [|[|[|]]]; discriminate.
Qed.
Lemma normalize_agrees gen t k : normalize gen t = Ok k <-> agrees_gen gen t k.
Proof.
  destruct gen; cbn [agrees_gen]; [|apply normalize_false]. rewrite <- (normalize_false t k).
  destruct t as [v|v r i|cs i|v i|t|v s| |]; cbn [normalize is_structure]; split; intros H.
  all: try (left; split; [exact I|congruence]).
  all: try (right; split; [tauto|exact H]).
  all: destruct H as [[H1 H2]|[H1 H2]]; try contradiction; try (exfalso; apply H1; exact I); try (rewrite H2; reflexivity); exact H2.
Qed.
Lemma agrees_fun gen t k k' : agrees_gen gen t k -> agrees_gen gen t k' -> k = k'.
Proof. rewrite <- !normalize_agrees. congruence. Qed.

Lemma types_match_eq a : forall b, types_match a b = true <-> a = b.
Proof.
  induction a as [|x a IH]; intros [|y b]; cbn [types_match]; try (split; [discriminate|discriminate || reflexivity]); [tauto|].
  rewrite andb_true_iff, bool_decide_eq_true, IH. split; [intros [-> ->]; reflexivity|intros [= -> ->]; tauto].
Qed.

(** * Finding a kernel *)
Definition fit (args ress : list ty) (backend : name) (k : kernel) : Prop := k_backend k = backend /\ k_args k = args /\ k_res k = ress.
Lemma find_step_eq args ress b ch k : find_step args ress b ch k =
  match ch with
  | None => if bool_decide (k_backend k = b) && (types_match args (k_args k) && types_match ress (k_res k)) then Some k else None
  | Some k' => if bool_decide (k_backend k = b) && (types_match args (k_args k) && types_match ress (k_res k)) && bool_decide (k_prio k' < k_prio k)%Z then Some k else Some k'
  end.
Proof.
  unfold find_step. destruct (decide (k_backend k <> b)) as [N|N].
  - rewrite bool_decide_eq_false_2 by exact N. cbn [andb]. destruct ch; reflexivity.
  - destruct (decide (k_backend k = b)) as [E|E]; [|contradiction]. rewrite (bool_decide_eq_true_2 (k_backend k = b)) by exact E. cbn [andb].
    destruct (types_match args (k_args k) && types_match ress (k_res k)); cbn [andb]; destruct ch as [k'|]; try reflexivity.
    destruct (decide (k_prio k' < k_prio k)%Z) as [P|P]; [rewrite bool_decide_eq_true_2 by exact P|rewrite bool_decide_eq_false_2 by exact P]; reflexivity.
Qed.
Lemma fit_bool args ress b k : bool_decide (k_backend k = b) && (types_match args (k_args k) && types_match ress (k_res k)) = true <-> fit args ress b k.
Proof. unfold fit. rewrite !andb_true_iff, bool_decide_eq_true, !types_match_eq. split; intros (? & ? & ?); repeat split; congruence. Qed.

(** The first of those with the highest priority. *)
Lemma find_some args ress b l : forall k0,
  exists k, fold_left (find_step args ress b) l (Some k0) = Some k /\
    ((k = k0 /\ forall k', k' ∈ l -> fit args ress b k' -> (k_prio k' <= k_prio k0)%Z) \/
     (exists l1 l2, l = l1 ++ k :: l2 /\ fit args ress b k /\ (k_prio k0 < k_prio k)%Z /\
       (forall k', k' ∈ l1 -> fit args ress b k' -> (k_prio k' < k_prio k)%Z) /\ (forall k', k' ∈ l2 -> fit args ress b k' -> (k_prio k' <= k_prio k)%Z))).
Proof.
  induction l as [|x l IH]; intros k0; cbn [fold_left].
  - exists k0. split; [reflexivity|]. left. split; [reflexivity|]. intros k' H. apply elem_of_nil in H as [].
  - rewrite find_step_eq. destruct (bool_decide (k_backend x = b) && (types_match args (k_args x) && types_match ress (k_res x))) eqn:F; cbn [andb].
    + apply fit_bool in F. destruct (decide (k_prio k0 < k_prio x)%Z) as [P|P].
      * rewrite bool_decide_eq_true_2 by exact P. destruct (IH x) as (k & E & [[-> H]|(l1 & l2 & -> & Fk & Px & H1 & H2)]); exists k || exists x; (split; [exact E|right]).
        -- exists [], l. split; [reflexivity|]. split; [exact F|]. split; [exact P|]. split; [intros k' Hk; apply elem_of_nil in Hk as []|exact H].
        -- exists (x :: l1), l2. split; [reflexivity|]. split; [exact Fk|]. split; [lia|]. split; [|exact H2].
           intros k' Hk Fk'. apply elem_of_cons in Hk as [->|Hk]; [exact Px|apply H1; assumption].
      * rewrite bool_decide_eq_false_2 by exact P. destruct (IH k0) as (k & E & [[-> H]|(l1 & l2 & -> & Fk & Px & H1 & H2)]).
        -- exists k0. split; [exact E|]. left. split; [reflexivity|]. intros k' Hk Fk'. apply elem_of_cons in Hk as [->|Hk]; [lia|apply H; assumption].
        -- exists k. split; [exact E|]. right. exists (x :: l1), l2. split; [reflexivity|]. split; [exact Fk|]. split; [exact Px|]. split; [|exact H2].
           intros k' Hk Fk'. apply elem_of_cons in Hk as [->|Hk]; [lia|apply H1; assumption].
    + assert (NF : ~ fit args ress b x) by (intros Fx; apply fit_bool in Fx; congruence).
      destruct (IH k0) as (k & E & [[-> H]|(l1 & l2 & -> & Fk & Px & H1 & H2)]).
      * exists k0. split; [exact E|]. left. split; [reflexivity|]. intros k' Hk Fk'. apply elem_of_cons in Hk as [->|Hk]; [contradiction|apply H; assumption].
      * exists k. split; [exact E|]. right. exists (x :: l1), l2. split; [reflexivity|]. split; [exact Fk|]. split; [exact Px|]. split; [|exact H2].
        intros k' Hk Fk'. apply elem_of_cons in Hk as [->|Hk]; [contradiction|apply H1; assumption].
Qed.
Lemma find_spec args ress b l :
  match fold_left (find_step args ress b) l None with
  | None => forall k, k ∈ l -> ~ fit args ress b k
  | Some k => exists l1 l2, l = l1 ++ k :: l2 /\ fit args ress b k /\
       (forall k', k' ∈ l1 -> fit args ress b k' -> (k_prio k' < k_prio k)%Z) /\ (forall k', k' ∈ l2 -> fit args ress b k' -> (k_prio k' <= k_prio k)%Z)
  end.
Proof.
  induction l as [|x l IH]; cbn [fold_left].
  - intros k H. apply elem_of_nil in H as [].
  - rewrite find_step_eq. destruct (bool_decide (k_backend x = b) && (types_match args (k_args x) && types_match ress (k_res x))) eqn:F.
    + apply fit_bool in F. destruct (find_some args ress b l x) as (k & E & [[-> H]|(l1 & l2 & -> & Fk & Px & H1 & H2)]); rewrite E.
      * exists [], l. split; [reflexivity|]. split; [exact F|]. split; [intros k' Hk; apply elem_of_nil in Hk as []|exact H].
      * exists (x :: l1), l2. split; [reflexivity|]. split; [exact Fk|]. split; [|exact H2].
        intros k' Hk Fk'. apply elem_of_cons in Hk as [->|Hk]; [exact Px|apply H1; assumption].
    + assert (NF : ~ fit args ress b x) by (intros Fx; apply fit_bool in Fx; congruence).
      destruct (fold_left (find_step args ress b) l None) as [k|].
      * destruct IH as (l1 & l2 & -> & Fk & H1 & H2). exists (x :: l1), l2. split; [reflexivity|]. split; [exact Fk|]. split; [|exact H2].
        intros k' Hk Fk'. apply elem_of_cons in Hk as [->|Hk]; [contradiction|apply H1; assumption].
      * intros k Hk. apply elem_of_cons in Hk as [->|Hk]; [exact NF|apply IH, Hk].
Qed.
Lemma kernel_infos_elem c op k : k ∈ kernel_infos c op <-> (op, k) ∈ c.
Proof.
  unfold kernel_infos. rewrite elem_of_list_In, in_map_iff. split.
  - intros ([op' k'] & <- & H). apply elem_of_list_In, elem_of_list_filter in H as [E H]. cbn in E. subst. exact H.
  - intros H. exists (op, k). split; [reflexivity|]. apply elem_of_list_In, elem_of_list_filter. split; [reflexivity|exact H].
Qed.
Lemma kernel_infos_app c d op : kernel_infos (c ++ d) op = kernel_infos c op ++ kernel_infos d op.
Proof. unfold kernel_infos, catalog in *. induction c as [|e c IH]; [reflexivity|]. cbn [app]. rewrite !filter_cons. destruct (decide (fst e = op)); cbn [map app]; rewrite IH; reflexivity. Qed.

(** * Arguments *)
Lemma normalize_all_spec ts : normalize_all ts <> UB /\ forall ks, normalize_all ts = Ok ks <-> Forall2 agrees ts ks.
Proof.
  induction ts as [|t ts [IH1 IH2]]; cbn [normalize_all].
  - split; [discriminate|]. intros ks. split; [intros [= <-]; constructor|intros H; inversion H; reflexivity].
  - pose proof (normalize_no_ub false t) as NU. split.
    + destruct (normalize false t); [|discriminate|contradiction]. cbn [obind]. destruct (normalize_all ts); [discriminate|discriminate|contradiction].
    + intros ks. split.
      * intros H. destruct (normalize false t) as [k| |] eqn:E; [|discriminate H|discriminate H]. cbn [obind] in H.
        destruct (normalize_all ts) as [r| |]; [|discriminate H|discriminate H]. cbn [obind] in H. injection H as <-.
        constructor; [apply normalize_false, E|apply IH2; reflexivity].
      * intros H. inversion H as [|? k ? r H1 H2]; subst. apply normalize_false in H1. rewrite H1. cbn [obind].
        apply IH2 in H2. rewrite H2. reflexivity.
Qed.
Lemma lower_plain_spec gen args : lower_plain gen args <> UB /\ forall ts ks, lower_plain gen args = Ok (ts, ks) <-> Forall2 (agrees_gen gen) (map snd args) ts /\ ks = map (fun a => KVal (fst a)) args.
Proof.
  induction args as [|[v t] args [IH1 IH2]]; cbn [lower_plain map snd fst].
  - split; [discriminate|]. intros ts ks. split; [intros [= <- <-]; split; [constructor|reflexivity]|intros [H ->]; inversion H; reflexivity].
  - pose proof (normalize_no_ub gen t) as NU. split.
    + destruct (normalize gen t); [|discriminate|contradiction]. cbn [obind]. destruct (lower_plain gen args) as [[? ?]| |]; [discriminate|discriminate|contradiction].
    + intros ts ks. split.
      * intros H. destruct (normalize gen t) as [k| |] eqn:E; [|discriminate H|discriminate H]. cbn [obind] in H.
        destruct (lower_plain gen args) as [[r rs]| |]; [|discriminate H|discriminate H]. cbn [obind] in H. injection H as <- <-.
        destruct (proj1 (IH2 r rs) eq_refl) as [F ->]. split; [|reflexivity]. constructor; [apply normalize_agrees, E|exact F].
      * intros [H ->]. inversion H as [|? k ? r H1 H2]; subst. apply normalize_agrees in H1. rewrite H1. cbn [obind].
        rewrite (proj2 (IH2 r (map (fun a => KVal (fst a)) args))) by (split; [exact H2|reflexivity]). reflexivity.
Qed.

Lemma passed_app a b : passed (a ++ b) = passed a ++ passed b.
Proof. induction a as [|k a IH]; [reflexivity|]. destruct k; cbn [passed app]; rewrite IH, ?app_assoc; reflexivity. Qed.
Lemma sized_app a b : sized a -> sized b -> sized (a ++ b).
Proof.
  intros Ha Hb. induction a as [|k a IH]; [exact Hb|]. cbn [app sized] in *. destruct Ha as [H1 H2]. split; [|apply IH, H2].
  destruct k; try exact I; destruct a as [|[] a]; try contradiction; exact H1.
Qed.
Lemma passed_vals (l : list (nat * ty)) : passed (map (fun a => KVal (fst a)) l) = map fst l.
Proof. induction l as [|a l IH]; [reflexivity|]. cbn. rewrite IH. reflexivity. Qed.
Lemma sized_vals (l : list (nat * ty)) : sized (map (fun a => KVal (fst a)) l).
Proof. induction l as [|a l IH]; [exact I|]. cbn. split; [exact I|exact IH]. Qed.

Lemma takes_any_eq o : takes_any o = generalize o.
Proof. destruct o; vm_compute; reflexivity. Qed.
Lemma for_backend_iff o b : for_backend o b <-> b = backend_of o.
Proof. unfold for_backend, backend_of. destruct (o_cuda o), (o_fpga o); intuition congruence. Qed.
(** Groups of operands: [pre] are the operands before, [args] those of the groups. *)
Lemma lower_groups_spec o : forall gs vs args pre i,
  o_args o = pre ++ args -> grouped (o_name o) gs vs (map snd args) ->
  lower_groups o i (length pre) gs vs <> UB /\
  (forall ts, (exists ks, lower_groups o i (length pre) gs vs = Ok (ts, ks)) <-> fits (o_name o) i gs vs (map snd args) ts) /\
  (forall ts ks, lower_groups o i (length pre) gs vs = Ok (ts, ks) -> passed ks = map fst args /\ sized ks).
Proof.
  induction gs as [|len gs IH]; intros vs args pre i Ho G.
  - inversion G as [E1 E2 E3| |]; subst. destruct args; [|discriminate]. cbn [lower_groups map]. split; [discriminate|]. split.
    + intros ts. split; [intros [ks [= <- <-]]; constructor|intros H; inversion H; subst; exists []; reflexivity].
    + intros ts ks [= <- <-]. split; [reflexivity|exact I].
  - set (gen := generalize (o_name o)). assert (TA : takes_any (o_name o) = gen) by apply takes_any_eq.
    inversion G as [|? vs' t ts' G' E1 E2 E3|? vs' ts1 ts' G' U E1 E2 E3]; subst.
    + destruct args as [|[v t'] args]; [discriminate|]. cbn [map snd] in E3. injection E3 as Et Es. subst t' ts'.
      destruct (IH vs' args (pre ++ [(v, t)]) (S i)) as (A1 & A2 & A3); [rewrite <- app_assoc; exact Ho|exact G'|].
      rewrite app_length in A1, A2, A3. cbn [length] in A1, A2, A3.
      assert (R : rd (o_args o) (length pre) = Ok (v, t)) by (apply rd_Ok; rewrite Ho, lookup_app_r, Nat.sub_diag by lia; reflexivity).
      cbn [lower_groups]. unfold lower_group. rewrite R. cbn [obind snd fst]. fold gen.
      pose proof (normalize_no_ub gen t) as NU.
      split; [|split].
      * destruct (normalize gen t); [|discriminate|contradiction]. cbn [obind]. destruct (lower_groups o (S i) (length pre + 1) gs vs') as [[? ?]| |]; [discriminate|discriminate|contradiction].
      * intros ts. split.
        -- intros [ks H]. destruct (normalize gen t) as [k| |] eqn:E; [|discriminate H|discriminate H]. cbn [obind] in H.
           destruct (lower_groups o (S i) (length pre + 1) gs vs') as [[r rs]| |] eqn:L; [|discriminate H|discriminate H]. cbn [obind app] in H. injection H as <- <-.
           apply fits_one; [rewrite TA; apply normalize_agrees, E|]. apply A2. exists rs. reflexivity.
        -- intros H. inversion H as [|? ? ? ? ? k ks' H1 H2| |]; subst. rewrite TA in H1. apply normalize_agrees in H1. rewrite H1. cbn [obind].
           apply A2 in H2 as [rs H2]. rewrite H2. cbn [obind app]. eexists. reflexivity.
      * intros ts ks H. destruct (normalize gen t) as [k| |]; [|discriminate H|discriminate H]. cbn [obind] in H.
        destruct (lower_groups o (S i) (length pre + 1) gs vs') as [[r rs]| |] eqn:L; [|discriminate H|discriminate H]. cbn [obind app] in H. injection H as <- <-.
        destruct (A3 r rs eq_refl) as [P S]. cbn [passed sized map fst]. rewrite P. split; [reflexivity|split; [exact I|exact S]].
    + assert (exists a1 a2, args = a1 ++ a2 /\ map snd a1 = ts1 /\ map snd a2 = ts') as (a1 & a2 & -> & <- & <-).
      { change (map snd args) with (snd <$> args) in E3. symmetry in E3. apply fmap_app_inv in E3 as (a1 & a2 & H1 & H2 & H3). exists a1, a2. split; [exact H3|split; symmetry; assumption]. }
      rewrite map_length in *.
      destruct (IH vs' a2 (pre ++ a1) (S i)) as (A1 & A2 & A3); [rewrite <- app_assoc; exact Ho|exact G'|].
      rewrite app_length in A1, A2, A3.
      assert (D : take (length a1) (drop (length pre) (o_args o)) = a1) by (rewrite Ho, drop_app, take_app; reflexivity).
      cbn [lower_groups]. unfold lower_group. rewrite D. fold gen.
      set (T := match length a1 with O => match empty_group_type (o_name o) i with Some t => Ok t | None => Throw end | S _ => let* a := rd (o_args o) (length pre) in Ok (snd a) end).
      assert (HT : T <> UB /\ (forall t, T = Ok t -> (a1 = [] /\ empty_group_type (o_name o) i = Some t) \/ (exists v a1', a1 = (v, t) :: a1')) /\
                   (T = Throw -> a1 = [] /\ empty_group_type (o_name o) i = None)).
      { unfold T. destruct a1 as [|[v t] a1].
        - cbn [length]. destruct (empty_group_type (o_name o) i) as [t|]; (split; [discriminate|]); split; try discriminate.
          + intros t' [= <-]. left. split; reflexivity.
          + intros _. split; reflexivity.
        - cbn [length]. assert (R : rd (o_args o) (length pre) = Ok (v, t)) by (apply rd_Ok; rewrite Ho, lookup_app_r, Nat.sub_diag by lia; reflexivity).
          rewrite R. cbn [obind snd]. split; [discriminate|]. split; [|discriminate]. intros t' [= <-]. right. exists v, a1. reflexivity. }
      destruct HT as (T1 & T2 & T3).
      split; [|split].
      * destruct T as [t| |]; [|discriminate|contradiction]. cbn [obind]. pose proof (normalize_no_ub gen t) as NU.
        destruct (normalize gen t); [|discriminate|contradiction]. cbn [obind]. destruct (lower_groups o (S i) (length pre + length a1) gs vs') as [[? ?]| |]; [discriminate|discriminate|contradiction].
      * intros ts. split.
        -- intros [ks H]. destruct T as [t| |]; [|discriminate H|discriminate H]. cbn [obind] in H.
           destruct (normalize gen t) as [k| |] eqn:E; [|discriminate H|discriminate H]. cbn [obind] in H. apply normalize_agrees in E.
           destruct (lower_groups o (S i) (length pre + length a1) gs vs') as [[r rs]| |] eqn:L; [|discriminate H|discriminate H]. cbn [obind app] in H. injection H as <- <-.
           assert (F : fits (o_name o) (S i) gs vs' (map snd a2) r) by (apply A2; exists rs; reflexivity).
           destruct (T2 t eq_refl) as [[-> Et]|(v & a1' & ->)].
           ++ apply fits_none with (t := t); [exact Et|rewrite TA; exact E|exact F].
           ++ apply fits_many; [cbn [length map]; rewrite map_length; reflexivity| |exact F].
              apply Forall_forall. intros u Hu. apply (U t u); [left|exact Hu|rewrite TA; exact E].
        -- intros H. inversion H as [| |? n ? ? ts1 ts2 k ks' HL HF H2 Ei En Ev Et|? t ? ? ? k ks' HE HA H2 Ei En Ev Et]; subst.
           ++ assert (ts1 = map snd a1 /\ ts2 = map snd a2) as [-> ->].
              { apply app_inj_1; [rewrite map_length; congruence|exact Et]. }
              destruct a1 as [|[v t] a1]; [discriminate|]. apply A2 in H2 as [rs H2]. rewrite <- En in H2. rewrite H2.
              assert (T = Ok t) as ->.
              { destruct T as [t'| |]; [|destruct (T3 eq_refl); discriminate|contradiction]. destruct (T2 t' eq_refl) as [[? _]|(? & ? & [= -> -> ->])]; [discriminate|reflexivity]. }
              cbn [obind]. apply Forall_inv in HF. rewrite TA in HF. apply normalize_agrees in HF. cbn [snd] in HF. rewrite HF. cbn [obind app]. eexists. reflexivity.
           ++ destruct a1 as [|a a1]; [|discriminate]. cbn [map app] in H2. apply A2 in H2 as [rs H2]. cbn [length] in *. rewrite H2.
              assert (T = Ok t) as ->.
              { destruct T as [t'| |]; [|destruct (T3 eq_refl); congruence|contradiction]. destruct (T2 t' eq_refl) as [[_ ?]|(? & ? & ?)]; [congruence|discriminate]. }
              cbn [obind]. rewrite TA in HA. apply normalize_agrees in HA. rewrite HA. cbn [obind app]. eexists. reflexivity.
      * intros ts ks H. destruct T as [t| |]; [|discriminate H|discriminate H]. cbn [obind] in H.
        destruct (normalize gen t) as [k| |]; [|discriminate H|discriminate H]. cbn [obind] in H.
        destruct (lower_groups o (S i) (length pre + length a1) gs vs') as [[r rs]| |] eqn:L; [|discriminate H|discriminate H]. cbn [obind app] in H. injection H as <- <-.
        destruct (A3 r rs eq_refl) as [P S]. cbn [passed sized]. rewrite P, map_app. split; [reflexivity|]. rewrite map_length. split; [reflexivity|]. split; [exact I|exact S].
Qed.

Definition lower_args (o : oper) : outcome (list ty * list karg) :=
  match variadic (o_name o) with Some vars => lower_groups o 0 0 (o_groups o) vars | None => lower_plain (generalize (o_name o)) (o_args o) end.
Lemma lower_args_spec o : well_grouped o ->
  lower_args o <> UB /\ (forall ts, (exists ks, lower_args o = Ok (ts, ks)) <-> fits_args o ts) /\
  (forall ts ks, lower_args o = Ok (ts, ks) -> passed ks = map fst (o_args o) /\ sized ks).
Proof.
  unfold lower_args, well_grouped, fits_args. destruct (variadic (o_name o)) as [vs|].
  - intros G. exact (lower_groups_spec o (o_groups o) vs (o_args o) [] 0 eq_refl G).
  - intros _. rewrite takes_any_eq. destruct (lower_plain_spec (generalize (o_name o)) (o_args o)) as [A B]. split; [exact A|]. split.
    + intros ts. split; [intros [ks H]; apply B in H as [H _]; exact H|]. intros H. eexists. apply B. split; [exact H|reflexivity].
    + intros ts ks H. apply B in H as [_ ->]. split; [apply passed_vals|apply sized_vals].
Qed.

(** The arguments of the call. *)
Definition with_attrs (o : oper) (ks : list karg) : list karg :=
  (if passes_attrs (o_name o) then ks ++ [KEnums (o_attrs o); KSize (length (o_attrs o))] else ks) ++ [KId; KCtx].
Lemma with_attrs_passed o ks : passed (with_attrs o ks) = passed ks.
Proof. unfold with_attrs. rewrite passed_app. destruct (passes_attrs (o_name o)); rewrite ?passed_app; cbn [passed]; rewrite ?app_nil_r; reflexivity. Qed.
Lemma with_attrs_sized o ks : sized ks -> sized (with_attrs o ks).
Proof. intros H. unfold with_attrs. apply sized_app; [|cbn; tauto]. destruct (passes_attrs (o_name o)); [|exact H]. apply sized_app; [exact H|]. cbn. tauto. Qed.
Lemma lower_eq c o : lower c o = let* ress := normalize_all (o_res o) in let* (args, ks) := lower_args o in let* (f, lib) := choose c o args ress in Ok (mkCall f (with_attrs o ks) lib).
Proof. reflexivity. Qed.

(** The kernel found for an operation without a hint. *)
Lemma lower_found c o : well_grouped o -> o_hint o = None ->
  match lower c o with
  | Ok call => exists k l1 l2 ks, kernel_infos c (o_name o) = l1 ++ k :: l2 /\ applicable c o k /\ call = mkCall (k_func k) (with_attrs o ks) (k_lib k) /\
      passed ks = map fst (o_args o) /\ sized ks /\
      (forall k', k' ∈ l1 -> applicable c o k' -> (k_prio k' < k_prio k)%Z) /\ (forall k', k' ∈ l2 -> applicable c o k' -> (k_prio k' <= k_prio k)%Z)
  | Throw => forall k, ~ applicable c o k
  | UB => False
  end.
Proof.
  intros G Hh. rewrite lower_eq. destruct (normalize_all_spec (o_res o)) as [N1 N2]. destruct (lower_args_spec o G) as (L1 & L2 & L3).
  destruct (normalize_all (o_res o)) as [ress| |] eqn:ER; [| |contradiction].
  2:{ cbn [obind]. intros k (_ & _ & _ & H). apply N2 in H. discriminate H. }
  cbn [obind]. destruct (lower_args o) as [[args ks]| |] eqn:EA; [| |contradiction].
  2:{ cbn [obind]. intros k (_ & _ & H & _). apply L2 in H as [? H]. discriminate H. }
  cbn [obind]. unfold choose. rewrite Hh. unfold find_kernel.
  assert (FA : forall k, (o_name o, k) ∈ c -> (fit args ress (backend_of o) k <-> applicable c o k)).
  { intros k Hk. unfold fit, applicable. rewrite for_backend_iff. split.
    - intros (-> & -> & ->). split; [exact Hk|]. split; [reflexivity|]. split; [apply L2; exists ks; reflexivity|apply N2; reflexivity].
    - intros (_ & -> & HA & HR). split; [reflexivity|]. apply L2 in HA as [ks' HA]. apply N2 in HR. split; congruence. }
  pose proof (find_spec args ress (backend_of o) (kernel_infos c (o_name o))) as F.
  destruct (fold_left _ _ None) as [k|].
  - cbn [obind]. destruct F as (l1 & l2 & EL & Fk & H1 & H2). destruct (L3 args ks eq_refl) as [P S].
    assert (IN : forall k', k' ∈ l1 \/ k' ∈ l2 \/ k' = k -> (o_name o, k') ∈ c).
    { intros k' Hk'. apply kernel_infos_elem. rewrite EL, elem_of_app, elem_of_cons. tauto. }
    exists k, l1, l2, ks. split; [exact EL|]. split; [apply FA; [apply IN; tauto|exact Fk]|]. split; [reflexivity|]. split; [exact P|]. split; [exact S|].
    split; intros k' Hk' Ak'; [apply H1|apply H2]; try exact Hk'; apply FA; try exact Ak'; apply IN; tauto.
  - cbn [obind]. intros k Ak. pose proof Ak as (Hk & _). apply (F k); [apply kernel_infos_elem, Hk|]. apply FA; assumption.
Qed.

(** * Catalog files *)
Section parse.
Context (tmap : name -> option ty).
Definition skipped (e : entry) : Prop := e_op e = OAvgForward \/ e_op e = OMaxForward.
Global Instance skipped_dec e : Decision (skipped e).
Proof. unfold skipped. apply _. Defined.
Definition registers (dir : name) (prio : Z) (e : entry) (r : opk * kernel) : Prop :=
  fst r = e_op e /\ k_func (snd r) = e_func e /\ k_backend (snd r) = e_backend e /\ k_lib (snd r) = dir ++ e_lib e /\ k_prio (snd r) = prio /\
  Forall2 (fun n t => tmap n = Some t) (e_res e) (k_res (snd r)) /\ Forall2 (fun n t => tmap n = Some t) (e_args e) (k_args (snd r)).
Lemma map_types_spec l : map_types tmap l <> UB /\ forall ts, map_types tmap l = Ok ts <-> Forall2 (fun n t => tmap n = Some t) l ts.
Proof.
  induction l as [|n l [IH1 IH2]]; cbn [map_types].
  - split; [discriminate|]. intros ts. split; [intros [= <-]; constructor|intros H; inversion H; reflexivity].
  - destruct (tmap n) as [t|] eqn:E.
    + split; [destruct (map_types tmap l); [discriminate|discriminate|contradiction]|]. intros ts. split.
      * intros H. destruct (map_types tmap l) as [r| |]; [|discriminate H|discriminate H]. cbn [obind] in H. injection H as <-. constructor; [exact E|]. apply IH2. reflexivity.
      * intros H. inversion H as [|? t' ? r H1 H2]; subst. apply IH2 in H2. rewrite H2. cbn [obind]. congruence.
    + split; [discriminate|]. intros ts. split; [discriminate|]. intros H. inversion H. congruence.
Qed.
Lemma parse_spec dir prio es : forall c,
  parse_catalog tmap dir prio es c <> UB /\
  forall c', parse_catalog tmap dir prio es c = Ok c' <-> exists d, c' = c ++ d /\ Forall2 (registers dir prio) (filter (fun e => ~ skipped e) es) d.
Proof.
  induction es as [|e es IH]; intros c; cbn [parse_catalog].
  - split; [discriminate|]. intros c'. rewrite filter_nil. split.
    + intros [= <-]. exists []. rewrite app_nil_r. split; [reflexivity|constructor].
    + intros (d & -> & H). inversion H. rewrite app_nil_r. reflexivity.
  - rewrite filter_cons. change (e_op e = OAvgForward \/ e_op e = OMaxForward) with (skipped e). destruct (decide (skipped e)) as [K|K].
    + rewrite (decide_False (P := ~ skipped e)) by tauto. apply IH.
    + rewrite (decide_True (P := ~ skipped e)) by tauto.
      destruct (map_types_spec (e_res e)) as [R1 R2]. destruct (map_types_spec (e_args e)) as [A1 A2].
      destruct (map_types tmap (e_res e)) as [r| |] eqn:ER; [| |contradiction]; cbn [obind].
      2:{ split; [discriminate|]. intros c'. split; [discriminate|]. intros (d & _ & H). inversion H as [|? k ? d' (_ & _ & _ & _ & _ & X & _) _]; subst. apply R2 in X. discriminate X. }
      destruct (map_types tmap (e_args e)) as [a| |] eqn:EA; [| |contradiction]; cbn [obind].
      2:{ split; [discriminate|]. intros c'. split; [discriminate|]. intros (d & _ & H). inversion H as [|? k ? d' (_ & _ & _ & _ & _ & _ & X) _]; subst. apply A2 in X. discriminate X. }
      set (k := mkKernel (e_func e) r a (e_backend e) (dir ++ e_lib e) prio).
      destruct (IH (c ++ [(e_op e, k)])) as [I1 I2]. split; [exact I1|]. intros c'. rewrite I2. split.
      * intros (d & -> & H). exists ((e_op e, k) :: d). split; [rewrite <- app_assoc; reflexivity|]. constructor; [|exact H].
        unfold registers. cbn [fst snd k_func k_backend k_lib k_prio k_res k_args k]. repeat split; [apply R2; reflexivity|apply A2; reflexivity].
      * intros (d & -> & H). inversion H as [|? x ? d' HX HD]; subst. exists d'. split; [|exact HD]. rewrite <- app_assoc. cbn [app].
        do 2 f_equal. destruct x as [op [f rs ags b l p]]. unfold registers in HX. cbn [fst snd k_func k_backend k_lib k_prio k_res k_args] in HX.
        destruct HX as (-> & -> & -> & -> & -> & X & Y). apply R2 in X. apply A2 in Y. injection X as <-. injection Y as <-. reflexivity.
Qed.
End parse.

(** * --kernel-ext *)
Lemma rfind_none s : COLON ∉ s -> rfind s = None.
Proof.
  induction s as [|c s IH]; intros H; [reflexivity|]. cbn [rfind]. apply not_elem_of_cons in H as [H1 H2]. rewrite (IH H2).
  destruct (Nat.eqb_spec c COLON); [congruence|reflexivity].
Qed.
Lemma rfind_last a b : COLON ∉ b -> rfind (a ++ COLON :: b) = Some (a, b).
Proof.
  intros H. induction a as [|c a IH]; cbn [app rfind]; [rewrite (rfind_none b H); reflexivity|]. rewrite IH. reflexivity.
Qed.
Lemma digits_all fuel : forall n acc, forallb is_digit acc = true -> forallb is_digit (dec_digits fuel n acc) = true.
Proof.
  induction fuel as [|f IH]; intros n acc H; [exact H|]. cbn [dec_digits].
  assert (D : forallb is_digit ((48 + Z.to_nat (n mod 10)) :: acc) = true).
  { cbn [forallb]. rewrite H, (proj1 (digit_ok (n mod 10) ltac:(apply Z.mod_pos_bound; lia))). reflexivity. }
  destruct (n <? 10)%Z; [exact D|apply IH, D].
Qed.
Lemma digit_plain d : is_digit d = true -> is_space d = false /\ d <> 45 /\ d <> 43 /\ d <> COLON.
Proof.
  unfold is_digit, is_space, COLON. rewrite andb_true_iff, !Nat.leb_le, orb_false_iff, andb_false_iff, !Nat.eqb_neq, !Nat.leb_gt. lia.
Qed.
Lemma stoll_print z : (- 2 ^ 63 <= z < 2 ^ 63)%Z -> stoll (print_dec z) = Ok z.
Proof.
  intros Hz. unfold print_dec.
  assert (V : forall n, (0 <= n)%Z -> exists d ds, dec_digits (S (Z.to_nat (Z.log2 n))) n [] = d :: ds /\ is_digit d = true /\ forallb is_digit (d :: ds) = true /\ digits_val (d :: ds) 0 = n).
  { intros n Hn. destruct (dec_digits_first (S (Z.to_nat (Z.log2 n))) n [] ltac:(discriminate)) as (d & ds & E & D).
    destruct (dec_digits_val (S (Z.to_nat (Z.log2 n))) n [] 0) as (k & _ & _ & _ & HV); [split; [exact Hn|apply log2_fuel, Hn]|].
    exists d, ds. split; [exact E|]. split; [exact D|]. rewrite <- E. split; [apply digits_all; reflexivity|]. rewrite HV. cbn [digits_val]. lia. }
  destruct (z <? 0)%Z eqn:S.
  - apply Z.ltb_lt in S. destruct (V (- z)%Z ltac:(lia)) as (d & ds & -> & D & A & E). unfold stoll. cbn [skip_space]. change (is_space 45) with false. cbn iota.
    rewrite decide_True by (split; [discriminate|exact A]). rewrite E. rewrite decide_True by lia. f_equal. lia.
  - apply Z.ltb_ge in S. destruct (V z S) as (d & ds & -> & D & A & E). unfold stoll. cbn [skip_space].
    destruct (digit_plain d D) as (P1 & P2 & P3 & _). rewrite P1.
    assert (M : match d :: ds with 45 :: r => (true, r) | 43 :: r => (false, r) | _ => (false, d :: ds) end = (false, d :: ds)).
    { do 46 (destruct d as [|d]; [try reflexivity; contradiction|]). reflexivity. }
    rewrite M. rewrite decide_True by (split; [discriminate|exact A]). rewrite E. rewrite decide_True by lia. reflexivity.
Qed.
Lemma print_no_colon z : COLON ∉ print_dec z.
Proof. intros H. apply print_dec_chars in H as [H|H]; [discriminate H|]. apply digit_plain in H. tauto. Qed.
