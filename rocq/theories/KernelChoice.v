(** C83: the kernel that is called for an operation. *)
From stdpp Require Import base numbers list.
From Coq Require Import ZArith Lia.
From Verif Require Import CppBase CsvModel Csv KernelModel KernelSpec KernelProofs.

Lemma infos_split op k c : forall l1 l2, kernel_infos c op = l1 ++ k :: l2 ->
  exists c1 c2, c = c1 ++ (op, k) :: c2 /\ kernel_infos c1 op = l1 /\ kernel_infos c2 op = l2.
Proof.
  induction c as [|[op' k'] c IH]; intros l1 l2 H; [destruct l1; discriminate H|].
  assert (E : kernel_infos ((op', k') :: c) op = if decide (op' = op) then k' :: kernel_infos c op else kernel_infos c op).
  { unfold kernel_infos, catalog in *. rewrite filter_cons. cbn [fst]. destruct (decide (op' = op)); reflexivity. }
  rewrite E in H. destruct (decide (op' = op)) as [->|N].
  - destruct l1 as [|x l1]; cbn [app] in H; injection H as -> H.
    + exists [], c. split; [reflexivity|]. split; [reflexivity|exact H].
    + destruct (IH l1 l2 H) as (c1 & c2 & -> & H1 & H2). exists ((op, x) :: c1), c2. split; [reflexivity|]. split; [|exact H2].
      unfold kernel_infos, catalog in *. rewrite filter_cons. cbn [fst]. rewrite decide_True by reflexivity. cbn [map snd]. rewrite H1. reflexivity.
  - destruct (IH l1 l2 H) as (c1 & c2 & -> & H1 & H2). exists ((op', k') :: c1), c2. split; [reflexivity|]. split; [|exact H2].
    unfold kernel_infos, catalog in *. rewrite filter_cons. cbn [fst]. rewrite decide_False by exact N. exact H1.
Qed.
Lemma applicable_app c d o k : applicable (c ++ d) o k <-> applicable c o k \/ applicable d o k.
Proof. unfold applicable. rewrite elem_of_app. tauto. Qed.

(** The kernel called for an operation is applicable, none that is applicable has a
    higher priority, and of those with the same priority it was registered first. *)
Theorem C83_choice c o call :
  well_grouped o -> o_hint o = None -> lower c o = Ok call ->
  exists c1 k c2, c = c1 ++ (o_name o, k) :: c2 /\ applicable c o k /\ c_func call = k_func k /\ c_lib call = k_lib k /\
    (forall k', applicable c o k' -> (k_prio k' <= k_prio k)%Z) /\
    (forall k', applicable c1 o k' -> (k_prio k' < k_prio k)%Z).
Proof.
  intros G Hh E. pose proof (lower_found c o G Hh) as F. rewrite E in F.
  destruct F as (k & l1 & l2 & ks & EL & Ak & -> & _ & _ & H1 & H2). destruct (infos_split _ _ _ _ _ EL) as (c1 & c2 & EC & E1 & E2).
  exists c1, k, c2. split; [exact EC|]. split; [exact Ak|]. split; [reflexivity|]. split; [reflexivity|].
  assert (L1 : forall k', applicable c1 o k' -> (k_prio k' < k_prio k)%Z).
  { intros k' A. apply H1; [rewrite <- E1; apply kernel_infos_elem, A|]. rewrite EC. apply applicable_app. left. exact A. }
  split; [|exact L1]. intros k' A. pose proof A as (HI & HB & HF & HR). rewrite EC, elem_of_app, elem_of_cons in HI. destruct HI as [HI|[HI|HI]].
  - enough (k_prio k' < k_prio k)%Z by lia. apply L1. split; [exact HI|]. split; [exact HB|]. split; assumption.
  - injection HI as ->. lia.
  - apply H2; [rewrite <- E2; apply kernel_infos_elem, HI|exact A].
Qed.

(** There is a call if and only if some kernel is applicable; otherwise there is an
    error. *)
Theorem C83_error c o :
  well_grouped o -> o_hint o = None ->
  lower c o <> UB /\ ((exists call, lower c o = Ok call) <-> exists k, applicable c o k) /\ (lower c o = Throw <-> forall k, ~ applicable c o k).
Proof.
  intros G Hh. pose proof (lower_found c o G Hh) as F. destruct (lower c o) as [call| |]; [| |contradiction].
  - destruct F as (k & l1 & l2 & ks & _ & Ak & _). split; [discriminate|]. split; split; intros H; eauto; try discriminate H. exfalso. exact (H k Ak).
  - split; [discriminate|]. split; split; try (intros [? H]; try discriminate H; exfalso; exact (F _ H)); try reflexivity. intros _. exact F.
Qed.

(** The order of unrelated registrations does not matter: kernels that are not
    applicable change nothing. *)
Lemma lower_call_eq c d o k k' l1 l2 l1' l2' ks ks' :
  kernel_infos c (o_name o) = l1 ++ k :: l2 -> kernel_infos d (o_name o) = l1' ++ k' :: l2' -> k = k' ->
  lower c o = Ok (mkCall (k_func k) (with_attrs o ks) (k_lib k)) -> lower d o = Ok (mkCall (k_func k') (with_attrs o ks') (k_lib k')) -> o_hint o = None ->
  lower c o = lower d o.
Proof.
  intros _ _ -> Hc Hd Hh. rewrite Hc, Hd. rewrite lower_eq in Hc, Hd.
  destruct (normalize_all (o_res o)) as [r| |]; [|discriminate Hc|discriminate Hc]. cbn [obind] in Hc, Hd.
  destruct (lower_args o) as [[a ks0]| |]; [|discriminate Hc|discriminate Hc]. cbn [obind] in Hc, Hd.
  destruct (choose c o a r) as [[f l]| |]; [|discriminate Hc|discriminate Hc]. destruct (choose d o a r) as [[f' l']| |]; [|discriminate Hd|discriminate Hd].
  cbn [obind] in Hc, Hd. injection Hc as _ E1 _. injection Hd as _ E2 _. rewrite <- E1, <- E2. reflexivity.
Qed.
Lemma lower_prefix c d o : well_grouped o -> o_hint o = None ->
  (forall k', applicable d o k' -> exists k, applicable c o k /\ (k_prio k' <= k_prio k)%Z) -> lower (c ++ d) o = lower c o.
Proof.
  intros G Hh HD. pose proof (lower_found c o G Hh) as Fc. pose proof (lower_found (c ++ d) o G Hh) as Fd.
  destruct (lower c o) as [call| |] eqn:Ec; [| |contradiction].
  - destruct Fc as (k & l1 & l2 & ks & EL & Ak & -> & P & S & H1 & H2).
    destruct (lower (c ++ d) o) as [call'| |] eqn:Ed; [| |contradiction].
    2:{ exfalso. apply (Fd k). apply applicable_app. left. exact Ak. }
    destruct Fd as (k' & l1' & l2' & ks' & EL' & Ak' & -> & P' & S' & H1' & H2').
    assert (MX : forall q, applicable c o q -> (k_prio q <= k_prio k)%Z).
    { intros q Aq. pose proof Aq as (HI & _). apply kernel_infos_elem in HI. rewrite EL, elem_of_app, elem_of_cons in HI. destruct HI as [HI|[->|HI]]; [specialize (H1 q HI Aq)| |specialize (H2 q HI Aq)]; lia. }
    assert (KK : k = k').
    { assert (P1 : (k_prio k <= k_prio k')%Z).
      { assert (A : applicable (c ++ d) o k) by (apply applicable_app; left; exact Ak). pose proof A as (HI & _). apply kernel_infos_elem in HI. rewrite EL', elem_of_app, elem_of_cons in HI.
        destruct HI as [HI|[->|HI]]; [specialize (H1' k HI A)| |specialize (H2' k HI A)]; lia. }
      assert (P2 : (k_prio k' <= k_prio k)%Z).
      { apply applicable_app in Ak' as [A|A]; [apply MX, A|]. destruct (HD _ A) as (q & Aq & Hq). specialize (MX q Aq). lia. }
      rewrite kernel_infos_app, EL in EL'. rewrite <- app_assoc in EL'. cbn [app] in EL'.
      apply app_eq_app in EL' as (m & [[E1 E2]|[E1 E2]]).
      - subst l1. destruct m as [|x m]; cbn [app] in E2; [injection E2; congruence|]. injection E2 as <- _.
        assert (L : k' ∈ l1' ++ k' :: m) by (rewrite elem_of_app, elem_of_cons; tauto).
        assert (Ac : applicable c o k').
        { destruct Ak' as (_ & ?). split; [|assumption]. apply kernel_infos_elem. rewrite EL, !elem_of_app, !elem_of_cons. tauto. }
        specialize (H1 k' L Ac). lia.
      - subst l1'. destruct m as [|x m]; cbn [app] in E2; [injection E2; congruence|]. injection E2 as <- _.
        assert (L : k ∈ l1 ++ k :: m) by (rewrite elem_of_app, elem_of_cons; tauto).
        assert (Ac : applicable (c ++ d) o k) by (apply applicable_app; left; exact Ak).
        specialize (H1' k L Ac). lia. }
    symmetry. rewrite <- Ec, <- Ed. exact (lower_call_eq c (c ++ d) o k k' l1 l2 l1' l2' ks ks' EL EL' KK Ec Ed Hh).
  - destruct (lower (c ++ d) o) as [call'| |] eqn:Ed; [|reflexivity|contradiction].
    destruct Fd as (k' & _ & _ & _ & _ & Ak' & _). exfalso. apply applicable_app in Ak' as [A|A]; [exact (Fc k' A)|]. destruct (HD k' A) as (q & Aq & _). exact (Fc q Aq).
Qed.

(** Extensions: with a positive priority their kernels are always preferred to the
    built-in ones if they are applicable; with priority 0 or less they are used only
    if no built-in kernel is applicable, and change nothing otherwise. *)
Theorem C83_extension c d p o :
  well_grouped o -> o_hint o = None -> Forall (fun e => k_prio (snd e) = 0%Z) c -> Forall (fun e => k_prio (snd e) = p) d ->
  ((0 < p)%Z -> (exists k, applicable d o k) -> exists k call, lower (c ++ d) o = Ok call /\ applicable d o k /\ c_func call = k_func k /\ c_lib call = k_lib k) /\
  ((p <= 0)%Z -> (exists k, applicable c o k) -> lower (c ++ d) o = lower c o) /\
  ((forall k, ~ applicable c o k) -> (exists k, applicable d o k) -> exists k call, lower (c ++ d) o = Ok call /\ applicable d o k /\ c_func call = k_func k /\ c_lib call = k_lib k) /\
  ((forall k, ~ applicable d o k) -> lower (c ++ d) o = lower c o).
Proof.
  intros G Hh HC HD. rewrite Forall_forall in HC, HD.
  assert (FROM : (exists k, applicable d o k) -> ((0 < p)%Z \/ forall k, ~ applicable c o k) ->
    exists k call, lower (c ++ d) o = Ok call /\ applicable d o k /\ c_func call = k_func k /\ c_lib call = k_lib k).
  { intros [q Aq] Hp. destruct (C83_error (c ++ d) o G Hh) as (_ & HE & _).
    destruct (proj2 HE) as [call E]; [exists q; apply applicable_app; right; exact Aq|].
    destruct (C83_choice _ _ _ G Hh E) as (c1 & k & c2 & _ & Ak & E1 & E2 & MX & _). exists k, call. split; [exact E|]. split; [|split; assumption].
    apply applicable_app in Ak as [A|A]; [|exact A]. exfalso. destruct Hp as [Hp|Hp]; [|exact (Hp k A)].
    specialize (MX q ltac:(apply applicable_app; right; exact Aq)). pose proof (HC _ (proj1 A)) as Zk. pose proof (HD _ (proj1 Aq)) as Pq. cbn [snd] in Zk, Pq. lia. }
  split; [intros Hp Hq; apply FROM; [exact Hq|left; exact Hp]|].
  split; [|split; [intros Hp Hq; apply FROM; [exact Hq|right; exact Hp]|]].
  - intros Hp [q Aq]. apply lower_prefix; [exact G|exact Hh|]. intros k' Ak'. exists q. split; [exact Aq|].
    pose proof (HC _ (proj1 Aq)) as Zk. pose proof (HD _ (proj1 Ak')) as Pq. cbn [snd] in Zk, Pq. lia.
  - intros Hn. apply lower_prefix; [exact G|exact Hh|]. intros k' Ak'. exfalso. exact (Hn k' Ak').
Qed.

(** The operands are passed in order, each pack followed by its size, then the
    identifier of the operation and the context. *)
Theorem C83_operands c o call :
  well_grouped o -> lower c o = Ok call ->
  passed (c_args call) = map fst (o_args o) /\ sized (c_args call) /\
  (passes_attrs (o_name o) = true -> exists pre, c_args call = pre ++ [KEnums (o_attrs o); KSize (length (o_attrs o)); KId; KCtx]) /\
  exists pre, c_args call = pre ++ [KId; KCtx].
Proof.
  intros G E. rewrite lower_eq in E. destruct (lower_args_spec o G) as (_ & _ & L3).
  destruct (normalize_all (o_res o)) as [r| |]; [|discriminate E|discriminate E]. cbn [obind] in E.
  destruct (lower_args o) as [[a ks]| |]; [|discriminate E|discriminate E]. cbn [obind] in E.
  destruct (choose c o a r) as [[f l]| |]; [|discriminate E|discriminate E]. cbn [obind] in E. injection E as <-. cbn [c_args].
  destruct (L3 a ks eq_refl) as [P S]. split; [rewrite with_attrs_passed; exact P|]. split; [apply with_attrs_sized, S|].
  unfold with_attrs. split; [|eexists; reflexivity]. intros ->. exists ks. rewrite <- app_assoc. reflexivity.
Qed.

(** A hint is followed or reported, never ignored. *)
Theorem C83_hint c o h :
  well_grouped o -> o_hint o = Some h ->
  lower c o <> UB /\
  (forall call, lower c o = Ok call -> c_func call = h /\ exists k, (o_name o, k) ∈ c /\ k_func k = h /\ c_lib call = k_lib k) /\
  ((forall k, (o_name o, k) ∈ c -> k_func k <> h) -> lower c o = Throw).
Proof.
  intros G Hh. rewrite lower_eq. destruct (normalize_all_spec (o_res o)) as [N1 _]. destruct (lower_args_spec o G) as (L1 & _ & _).
  destruct (normalize_all (o_res o)) as [r| |]; [| |contradiction]; cbn [obind]; [|split; [discriminate|]; split; [discriminate|reflexivity]].
  destruct (lower_args o) as [[a ks]| |]; [| |contradiction]; cbn [obind]; [|split; [discriminate|]; split; [discriminate|reflexivity]].
  unfold choose. rewrite Hh. destruct (filter (fun k => k_func k = h) (kernel_infos c (o_name o))) as [|k l] eqn:E; cbn [obind].
  - split; [discriminate|]. split; [discriminate|reflexivity].
  - assert (IN : k ∈ filter (fun k => k_func k = h) (kernel_infos c (o_name o))) by (rewrite E; left).
    apply elem_of_list_filter in IN as [Ek IN]. apply kernel_infos_elem in IN. split; [discriminate|]. split.
    + intros call [= <-]. cbn [c_func c_lib]. split; [reflexivity|]. exists k. split; [exact IN|]. split; [exact Ek|reflexivity].
    + intros H. exfalso. exact (H k IN Ek).
Qed.

(** But the hinted kernel is called whatever its parameters, results and backend. *)
Lemma rank_agrees t : rank_ok t -> exists k, agrees t k.
Proof.
  induction t as [v|v r i|cs i|v i|t IH|v s| |]; intros H; try (eexists; constructor; fail).
  - destruct (IH H) as [k Hk]. eexists. constructor. exact Hk.
  - cbn [rank_ok] in H. destruct s as [|a [|b [|c s]]]; cbn [length] in H; try (destruct H; discriminate); eexists; constructor.
Qed.
Lemma rank_agrees_gen gen t : rank_ok t -> exists k, agrees_gen gen t k.
Proof.
  intros H. destruct (rank_agrees t H) as [k Hk]. destruct gen; cbn [agrees_gen]; [|exists k; exact Hk].
  destruct t; cbn [is_structure]; try (eexists; left; split; [exact I|reflexivity]); eexists; right; (split; [tauto|exact Hk]).
Qed.
Theorem C83_hint_refuted c o h k :
  variadic (o_name o) = None -> Forall rank_ok (map snd (o_args o)) -> Forall rank_ok (o_res o) ->
  o_hint o = Some h -> (o_name o, k) ∈ c -> k_func k = h ->
  exists call, lower c o = Ok call /\ c_func call = h.
Proof.
  intros Hv HA HR Hh Hk Ef. rewrite lower_eq. destruct (normalize_all_spec (o_res o)) as [_ N2].
  assert (ALL : forall gen ts, Forall rank_ok ts -> exists ks, Forall2 (agrees_gen gen) ts ks).
  { intros gen ts. induction 1 as [|t ts Ht _ [ks IH]]; [exists []; constructor|]. destruct (rank_agrees_gen gen t Ht) as [x Hx]. exists (x :: ks). constructor; assumption. }
  destruct (ALL false _ HR) as [r Hr]. apply N2 in Hr. rewrite Hr. cbn [obind].
  unfold lower_args. rewrite Hv. destruct (lower_plain_spec (generalize (o_name o)) (o_args o)) as [_ L2].
  destruct (ALL (generalize (o_name o)) _ HA) as [a Ha]. rewrite (proj2 (L2 a _) (conj Ha eq_refl)). cbn [obind].
  unfold choose. rewrite Hh. destruct (filter (fun k => k_func k = h) (kernel_infos c (o_name o))) as [|k' l] eqn:E; cbn [obind].
  - exfalso. assert (IN : k ∈ filter (fun k => k_func k = h) (kernel_infos c (o_name o))) by (apply elem_of_list_filter; split; [exact Ef|apply kernel_infos_elem, Hk]).
    rewrite E in IN. apply elem_of_nil in IN as [].
  - eexists. split; reflexivity.
Qed.

(** The occurrences of a variadic operand are not all looked at: only the first
    occurrence decides which kernel is called. *)
Theorem C83_pack_refuted c v r1 k l :
  (forall f, (OCreateList, f) ∈ c -> f = k) -> (OCreateList, k) ∈ c -> k_backend k = CPP ->
  k_args k = [TMatrix v r1 []; TScalar vt_index] -> k_res k = [TList (TMatrix v r1 [])] ->
  (forall x t, l !! 0 = Some (x, t) -> t = TMatrix v r1 []) -> l <> [] ->
  let o := mkOper OCreateList l [TList (TMatrix v r1 [])] [length l] [] None false false in
  (exists call, lower c o = Ok call /\ c_func call = k_func k /\ passed (c_args call) = map fst l) /\
  ((exists x, x ∈ l /\ ~ agrees (snd x) (TMatrix v r1 [])) -> ~ applicable c o k).
Proof.
  intros HU Hk HB HA HR Hl Hn. cbn zeta. destruct l as [|[x t] l]; [contradiction|]. pose proof (Hl x t eq_refl) as ->. clear Hl Hn. split.
  - rewrite lower_eq. cbn [o_res normalize_all normalize obind]. unfold lower_args. cbn [o_name variadic o_groups length lower_groups].
    unfold lower_group. cbn [o_args rd lookup list_lookup obind snd o_name generalize normalize drop take length].
    rewrite firstn_all. cbn [app obind]. unfold choose. cbn [o_hint o_name]. unfold find_kernel.
    change (backend_of _) with CPP. match goal with |- context [fold_left ?f ?L None] => pose proof (find_spec [TMatrix v r1 []; TScalar vt_index] [TList (TMatrix v r1 [])] CPP L) as F; destruct (fold_left f L None) as [k'|] eqn:EF end.
    + destruct F as (l1 & l2 & EL & _). assert (k' = k) as ->.
      { apply HU. apply kernel_infos_elem. rewrite EL, elem_of_app, elem_of_cons. tauto. }
      cbn [obind]. eexists. split; [reflexivity|]. cbn [c_func c_args]. split; [reflexivity|]. rewrite with_attrs_passed. cbn [passed map fst]. rewrite app_nil_r. reflexivity.
    + exfalso. apply (F k); [apply kernel_infos_elem, Hk|]. unfold fit. rewrite HB, HA, HR. repeat split; reflexivity.
  - intros (y & Hy & NA) (_ & _ & HF & _). unfold fits_args in HF. cbn [o_name variadic o_groups o_args] in HF. rewrite HA in HF.
    inversion HF as [| |? n ? ? ts1 ts2 ? ? HL HX HY E1 E2 E3 E4|]; subst.
    assert (y_in : snd y ∈ ts1).
    { inversion HY; subst. rewrite app_nil_r in E4. subst ts1. change (TMatrix v r1 [] :: map snd l) with (map snd ((x, TMatrix v r1 []) :: l)).
      apply elem_of_list_In, in_map, elem_of_list_In, Hy. }
    rewrite Forall_forall in HX. exact (NA (HX _ y_in)).
Qed.

(** * Catalog files *)
(** All entries are registered, in order, with the priority of the file; the file is
    refused if and only if it uses an unknown type, except in the two operations
    that are left out. *)
Theorem C83_catalog tmap dir prio es c :
  parse_catalog tmap dir prio es c <> UB /\
  (forall c', parse_catalog tmap dir prio es c = Ok c' -> exists d, c' = c ++ d /\ Forall2 (registers tmap dir prio) (filter (fun e => ~ skipped e) es) d) /\
  (parse_catalog tmap dir prio es c = Throw <-> exists e n, e ∈ es /\ ~ skipped e /\ n ∈ e_res e ++ e_args e /\ tmap n = None).
Proof.
  destruct (parse_spec tmap dir prio es c) as [P1 P2]. split; [exact P1|]. split; [intros c'; apply P2|].
  assert (TY : forall l : list name, (forall n, n ∈ l -> tmap n <> None) -> exists ts, Forall2 (fun n t => tmap n = Some t) l ts).
  { induction l as [|n l IH]; intros H; [exists []; constructor|]. destruct IH as [ts IH]; [intros m Hm; apply H; right; exact Hm|].
    destruct (tmap n) as [t|] eqn:E; [exists (t :: ts); constructor; assumption|]. exfalso. apply (H n); [left|exact E]. }
  assert (DEC : forall l : list name, (forall n, n ∈ l -> tmap n <> None) \/ exists n, n ∈ l /\ tmap n = None).
  { induction l as [|n l [IH|(m & Hm & Em)]].
    - left. intros n Hn. apply elem_of_nil in Hn as [].
    - destruct (tmap n) as [t|] eqn:E; [|right; exists n; split; [left|exact E]]. left. intros m Hm. apply elem_of_cons in Hm as [->|Hm]; [congruence|apply IH, Hm].
    - right. exists m. split; [right; exact Hm|exact Em]. }
  split.
  - intros HT.
    assert (ES : (forall e n, e ∈ es -> ~ skipped e -> n ∈ e_res e ++ e_args e -> tmap n <> None) \/ exists e n, e ∈ es /\ ~ skipped e /\ n ∈ e_res e ++ e_args e /\ tmap n = None).
    { clear -DEC. induction es as [|e es [IH|(e' & n & H1 & H2)]].
      - left. intros e n He. apply elem_of_nil in He as [].
      - destruct (decide (skipped e)) as [K|K].
        + left. intros e' n He NS. apply elem_of_cons in He as [->|He]; [contradiction|apply IH; assumption].
        + destruct (DEC (e_res e ++ e_args e)) as [D|(n & Hn & En)].
          * left. intros e' n He NS. apply elem_of_cons in He as [->|He]; [apply D|apply IH; assumption].
          * right. exists e, n. split; [left|]. split; [exact K|]. split; assumption.
      - right. exists e', n. split; [right; exact H1|exact H2]. }
    destruct ES as [ES|ES]; [|exact ES]. exfalso.
    assert (exists d, Forall2 (registers tmap dir prio) (filter (fun e => ~ skipped e) es) d) as [d Hd].
    { clear -ES TY. induction es as [|e es IH]; [exists []; constructor|]. destruct IH as [d IH]; [intros e' n He; apply ES; right; exact He|].
      rewrite filter_cons. destruct (decide (~ skipped e)) as [K|K]; [|exists d; exact IH].
      destruct (TY (e_res e)) as [r Hr]; [intros n Hn; apply (ES e n); [left|exact K|apply elem_of_app; left; exact Hn]|].
      destruct (TY (e_args e)) as [a Ha]; [intros n Hn; apply (ES e n); [left|exact K|apply elem_of_app; right; exact Hn]|].
      exists ((e_op e, mkKernel (e_func e) r a (e_backend e) (dir ++ e_lib e) prio) :: d). constructor; [|exact IH].
      unfold registers. cbn. repeat split; assumption. }
    rewrite (proj2 (P2 (c ++ d))) in HT by (exists d; split; [reflexivity|exact Hd]). discriminate HT.
  - intros (e & n & He & NS & Hn & En). destruct (parse_catalog tmap dir prio es c) as [c'| |] eqn:E; [|reflexivity|contradiction].
    exfalso. destruct (proj1 (P2 c') eq_refl) as (d & _ & HF).
    assert (He' : e ∈ filter (fun e => ~ skipped e) es) by (apply elem_of_list_filter; split; assumption).
    apply elem_of_list_lookup in He' as [j Hj]. destruct (Forall2_lookup_l _ _ _ _ _ HF Hj) as (r & _ & (_ & _ & _ & _ & _ & R1 & R2)).
    apply elem_of_app in Hn as [Hn|Hn]; apply elem_of_list_lookup in Hn as [i Hi]; [destruct (Forall2_lookup_l _ _ _ _ _ R1 Hi) as (t & _ & Ht)|destruct (Forall2_lookup_l _ _ _ _ _ R2 Hi) as (t & _ & Ht)]; congruence.
Qed.
(** Kernels for the two operations left out are never found, not even those of an
    extension or those named by a hint. *)
Theorem C83_skipped_refuted tmap dir0 es0 dir prio es c0 c o :
  parse_catalog tmap dir0 0 es0 [] = Ok c0 -> parse_catalog tmap dir prio es c0 = Ok c ->
  o_name o = OAvgForward \/ o_name o = OMaxForward ->
  forall call, lower c o <> Ok call.
Proof.
  intros H0 H1 Hn call E.
  assert (NO : forall k, (o_name o, k) ∉ c).
  { apply parse_spec in H0 as (d0 & E0 & F0). apply parse_spec in H1 as (d1 & -> & F1). cbn [app] in E0. subst d0.
    assert (X : forall dir prio es d, Forall2 (registers tmap dir prio) (filter (fun e => ~ skipped e) es) d -> forall k, (o_name o, k) ∉ d).
    { clear -Hn. intros dir prio es d HF k Hk. apply elem_of_list_lookup in Hk as [j Hj]. destruct (Forall2_lookup_r _ _ _ _ _ HF Hj) as (e & He & (R & _)). cbn [fst] in R.
      apply elem_of_list_lookup_2, elem_of_list_filter in He as [He _]. apply He. unfold skipped. rewrite <- R. exact Hn. }
    intros k Hk. apply elem_of_app in Hk as [Hk|Hk]; [exact (X _ _ _ _ F0 k Hk)|exact (X _ _ _ _ F1 k Hk)]. }
  assert (KN : kernel_infos c (o_name o) = []).
  { destruct (kernel_infos c (o_name o)) as [|k l] eqn:EK; [reflexivity|]. exfalso. apply (NO k). apply kernel_infos_elem. rewrite EK. left. }
  rewrite lower_eq in E. destruct (normalize_all (o_res o)) as [r| |]; [|discriminate E|discriminate E]. cbn [obind] in E.
  destruct (lower_args o) as [[a ks]| |]; [|discriminate E|discriminate E]. cbn [obind] in E.
  unfold choose, find_kernel in E. rewrite KN in E. destruct (o_hint o); discriminate E.
Qed.

(** * --kernel-ext *)
(** A file and a priority are read back as they were given, whatever the file name. *)
Theorem C83_ext_priority file z : (- 2 ^ 63 <= z < 2 ^ 63)%Z -> parse_ext (file ++ COLON :: print_dec z) = Ok (file, z).
Proof. intros Hz. unfold parse_ext. rewrite rfind_last by apply print_no_colon. rewrite stoll_print by exact Hz. reflexivity. Qed.
(** A file name without a colon has priority 0. *)
Theorem C83_ext_plain file : COLON ∉ file -> parse_ext file = Ok (file, 0%Z).
Proof. intros H. unfold parse_ext. rewrite (rfind_none file H). reflexivity. Qed.
(** Without a priority, a file name with a colon and an ending such as .json is
    refused. *)
Lemma skip_space_elem b s : is_space b = false -> b ∈ s -> b ∈ skip_space s.
Proof.
  intros Hb. induction s as [|x s IH]; intros H; [exact H|]. cbn [skip_space]. destruct (is_space x) eqn:E; [|exact H].
  apply elem_of_cons in H as [->|H]; [congruence|apply IH, H].
Qed.
Theorem C83_ext_colon_refuted a b : COLON ∉ b -> 46 ∈ b -> parse_ext (a ++ COLON :: b) = Throw.
Proof.
  intros Hc Hd. unfold parse_ext. rewrite rfind_last by exact Hc. enough (stoll b = Throw) as -> by reflexivity.
  unfold stoll. apply (skip_space_elem 46 b eq_refl) in Hd. set (body := skip_space b) in *.
  destruct (match body with 45 :: r => (true, r) | 43 :: r => (false, r) | _ => (false, body) end) as [neg ds] eqn:E.
  assert (D : 46 ∈ ds).
  { destruct body as [|x body]; [apply elem_of_nil in Hd as []|].
    apply elem_of_cons in Hd as [<-|Hd]; [injection E as _ <-; left|].
    do 43 (destruct x as [|x]; [injection E as _ <-; right; exact Hd|]).
    destruct x as [|x]; [injection E as _ <-; exact Hd|]. destruct x as [|x]; [injection E as _ <-; right; exact Hd|].
    destruct x as [|x]; injection E as _ <-; [exact Hd|right; exact Hd]. }
  rewrite decide_False; [reflexivity|]. intros [_ F]. rewrite forallb_forall in F. apply elem_of_list_In in D. specialize (F 46 D). discriminate F.
Qed.

(** * Libraries *)
Lemma lower_lib c o call : lower c o = Ok call -> exists k, (o_name o, k) ∈ c /\ c_func call = k_func k /\ c_lib call = k_lib k.
Proof.
  intros E. rewrite lower_eq in E. destruct (normalize_all (o_res o)) as [r| |]; [|discriminate E|discriminate E]. cbn [obind] in E.
  destruct (lower_args o) as [[a ks]| |]; [|discriminate E|discriminate E]. cbn [obind] in E. unfold choose in E. destruct (o_hint o) as [h|].
  - destruct (filter (fun k => k_func k = h) (kernel_infos c (o_name o))) as [|k l] eqn:EF; [discriminate E|]. cbn [obind] in E. injection E as <-.
    assert (IN : k ∈ filter (fun k => k_func k = h) (kernel_infos c (o_name o))) by (rewrite EF; left).
    apply elem_of_list_filter in IN as [Ek IN]. exists k. split; [apply kernel_infos_elem, IN|]. split; [symmetry; exact Ek|reflexivity].
  - unfold find_kernel in E. pose proof (find_spec a r (backend_of o) (kernel_infos c (o_name o))) as F.
    destruct (fold_left _ _ None) as [k|]; [|discriminate E]. cbn [obind] in E. injection E as <-. destruct F as (l1 & l2 & EL & _).
    exists k. split; [apply kernel_infos_elem; rewrite EL, elem_of_app, elem_of_cons; tauto|]. split; reflexivity.
Qed.
Lemma lower_all_calls c os : forall ks, lower_all c os = Ok ks -> forall call, call ∈ ks <-> exists o, o ∈ os /\ lower c o = Ok call.
Proof.
  induction os as [|o os IH]; intros ks H; cbn [lower_all] in H.
  - injection H as <-. intros call. split; [intros X; apply elem_of_nil in X as []|intros (o & X & _); apply elem_of_nil in X as []].
  - destruct (lower c o) as [k| |] eqn:E; [|discriminate H|discriminate H]. cbn [obind] in H. destruct (lower_all c os) as [r| |]; [|discriminate H|discriminate H].
    cbn [obind] in H. injection H as <-. intros call. rewrite elem_of_cons, (IH r eq_refl call). split.
    + intros [->|(o' & Ho & Eo)]; [exists o|exists o']; (split; [rewrite elem_of_cons; tauto|assumption]).
    + intros (o' & Ho & Eo). apply elem_of_cons in Ho as [->|Ho]; [left; congruence|right; exists o'; split; assumption].
Qed.
(** The library of every kernel that is called is loaded, libraries without such a
    kernel are not, and if no other library loaded has a function of the same name,
    the function called is that of the kernel chosen. *)
Theorem C83_library (provides : name -> name -> Prop) c os ks :
  (forall op k, (op, k) ∈ c -> provides (k_lib k) (k_func k)) -> lower_all c os = Ok ks ->
  (forall lib, lib ∈ loaded c ks <-> exists o call, o ∈ os /\ lower c o = Ok call /\ c_lib call = lib) /\
  (forall call, call ∈ ks -> may_call provides (loaded c ks) (c_func call) (c_lib call)) /\
  ((forall f l l', l ∈ loaded c ks -> l' ∈ loaded c ks -> provides l f -> provides l' f -> l = l') ->
   forall call, call ∈ ks -> forall lib, may_call provides (loaded c ks) (c_func call) lib -> lib = c_lib call).
Proof.
  intros HP HL. pose proof (lower_all_calls c os ks HL) as HC.
  assert (LD : forall lib, lib ∈ loaded c ks <-> exists o call, o ∈ os /\ lower c o = Ok call /\ c_lib call = lib).
  { intros lib. unfold loaded. rewrite elem_of_list_filter, elem_of_list_In, in_map_iff. split.
    - intros [(call & E & Hc) _]. apply elem_of_list_In, HC in Hc as (o & Ho & Eo). exists o, call. split; [exact Ho|]. split; assumption.
    - intros (o & call & Ho & Eo & <-). split; [exists call; split; [reflexivity|apply elem_of_list_In, HC; exists o; split; assumption]|].
      destruct (lower_lib c o call Eo) as (k & Hk & _ & ->). unfold libs_of. apply elem_of_list_In, in_map_iff. exists (o_name o, k). split; [reflexivity|apply elem_of_list_In, Hk]. }
  assert (MC : forall call, call ∈ ks -> may_call provides (loaded c ks) (c_func call) (c_lib call)).
  { intros call Hc. pose proof Hc as Hc'. apply HC in Hc' as (o & Ho & Eo). split; [apply LD; exists o, call; repeat split; assumption|].
    destruct (lower_lib c o call Eo) as (k & Hk & -> & ->). exact (HP _ _ Hk). }
  split; [exact LD|]. split; [exact MC|]. intros U call Hc lib [Hl Hp]. destruct (MC call Hc) as [Hl' Hp']. exact (U _ _ _ Hl Hl' Hp Hp').
Qed.
(** Otherwise it may be another one: kernels are called by name. *)
Definition lib_a : name := [97].
Definition lib_b : name := [98].
Definition fn_f : name := [102].
Definition fn_g : name := [103].
Definition dm : ty := TMatrix 1 Dense [].
Definition two_libs : catalog :=
  [(OOther 0, mkKernel fn_f [dm] [dm] CPP lib_a 0); (OOther 1, mkKernel fn_g [dm] [dm] CPP lib_a 0); (OOther 0, mkKernel fn_f [dm] [dm] CPP lib_b 1)].
Definition un (n : nat) : oper := mkOper (OOther n) [(0, TMatrix 1 Dense [7; 8]%Z)] [TMatrix 1 Dense [9; 9]%Z] [1] [] None false false.
Theorem C83_library_refuted (provides : name -> name -> Prop) :
  provides lib_a fn_f -> provides lib_b fn_f ->
  exists ks call, lower_all two_libs [un 0; un 1] = Ok ks /\ call ∈ ks /\ c_func call = fn_f /\ c_lib call = lib_b /\
    may_call provides (loaded two_libs ks) fn_f lib_a /\ may_call provides (loaded two_libs ks) fn_f lib_b.
Proof.
  intros Ha Hb. eexists. exists (mkCall fn_f [KVal 0; KId; KCtx] lib_b). split; [vm_compute; reflexivity|]. split; [left|]. split; [reflexivity|]. split; [reflexivity|].
  split; (split; [|assumption]); vm_compute; [left|right; right; left].
Qed.

(** * Examples *)
(** A group operation without aggregations, whose last operand has no occurrences. *)
Definition group_op : oper :=
  mkOper OGroup [(0, TFrame [1; 2] [5; 2]%Z); (1, TScalar vt_string); (2, TScalar vt_string)] [TFrame [2] []] [1; 2; 0] [4; 5]%Z None false false.
Definition fr : ty := TFrame [vt_unknown] [].
Definition group_cat : catalog :=
  [(OGroup, mkKernel fn_f [fr] [fr; TScalar vt_string; TScalar vt_index; TScalar vt_string; TScalar vt_index] CPP lib_a 0);
   (OGroup, mkKernel fn_g [fr] [fr; TScalar vt_string; TScalar vt_index; TScalar vt_string; TScalar vt_index] CPP lib_b 1)].
Theorem C83_example :
  well_grouped group_op /\
  lower group_cat group_op = Ok (mkCall fn_g [KVal 0; KPack (TScalar vt_string) [1; 2]; KSize 2; KPack (TScalar vt_string) []; KSize 0; KEnums [4; 5]%Z; KSize 2; KId; KCtx] lib_b) /\
  lower (take 1 group_cat) group_op = Ok (mkCall fn_f [KVal 0; KPack (TScalar vt_string) [1; 2]; KSize 2; KPack (TScalar vt_string) []; KSize 0; KEnums [4; 5]%Z; KSize 2; KId; KCtx] lib_a) /\
  lower two_libs (mkOper (OOther 0) [(0, TMatrix 1 Sparse [])] [dm] [1] [] None false false) = Throw /\
  lower two_libs (mkOper (OOther 0) [(0, TMatrix 1 Sparse [])] [dm] [1] [] (Some fn_f) true false) = Ok (mkCall fn_f [KVal 0; KId; KCtx] lib_a) /\
  (exists k, (OOther 0, k) ∈ two_libs /\ k_func k = fn_f /\ ~ applicable two_libs (mkOper (OOther 0) [(0, TMatrix 1 Sparse [])] [dm] [1] [] (Some fn_f) true false) k).
Proof.
  split.
  - unfold well_grouped, group_op. cbn [o_name variadic o_groups o_args map snd]. apply gr_one.
    change [TScalar vt_string; TScalar vt_string] with ([TScalar vt_string; TScalar vt_string] ++ []). change 2 with (length [TScalar vt_string; TScalar vt_string]).
    apply gr_many; [change (@nil ty) with (@nil ty ++ []) at 1; change 0 with (length (@nil ty)); apply gr_many; [constructor|intros t u H; apply elem_of_nil in H as []]|].
    intros t u Ht Hu. assert (forall w, w ∈ [TScalar vt_string; TScalar vt_string] -> w = TScalar vt_string) as X by (intros w Hw; rewrite !elem_of_cons in Hw; destruct Hw as [?|[?|Hw]]; [assumption|assumption|apply elem_of_nil in Hw as []]).
    rewrite (X t Ht), (X u Hu). intros k. reflexivity.
  - split; [vm_compute; reflexivity|]. split; [vm_compute; reflexivity|]. split; [vm_compute; reflexivity|]. split; [vm_compute; reflexivity|].
    eexists. split; [left|]. split; [reflexivity|]. intros (_ & H & _). apply for_backend_iff in H. discriminate H.
Qed.
(** The dense kernel for lists is called with a sparse matrix. *)
Theorem C83_pack_example :
  let k := mkKernel fn_f [TList dm] [dm; TScalar vt_index] CPP lib_a 0 in
  lower [(OCreateList, k)] (mkOper OCreateList [(0, dm); (1, TMatrix 1 Sparse [])] [TList dm] [2] [] None false false) = Ok (mkCall fn_f [KPack dm [0; 1]; KSize 2; KId; KCtx] lib_a).
Proof. vm_compute. reflexivity. Qed.

Print Assumptions C83_choice.
Print Assumptions C83_error.
Print Assumptions C83_extension.
Print Assumptions C83_operands.
Print Assumptions C83_hint.
Print Assumptions C83_hint_refuted.
Print Assumptions C83_pack_refuted.
Print Assumptions C83_catalog.
Print Assumptions C83_skipped_refuted.
Print Assumptions C83_ext_priority.
Print Assumptions C83_ext_plain.
Print Assumptions C83_ext_colon_refuted.
Print Assumptions C83_library.
Print Assumptions C83_library_refuted.
