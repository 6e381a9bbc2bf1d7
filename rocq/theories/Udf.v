(** * User-defined functions (C76) *)
From stdpp Require Import base numbers list gmap.
From Verif Require Import CppBase UdfModel UdfSpec UdfProofs UdfInv UdfTypes.

Section props.
  Context {val op : Type}.
  (** Any values, operations and types of them. *)
  Context (vty : val → ty) (truth : val → option bool) (fold : op → list val → option val) (opty : op → list ty → ty).
  Context (opsem : op → list val → option val).
  Context (elems : val → option (list val)) (rebuild : val → list val → option val).
  Context (ipa : bool).
  Notation func := (func val op).
  Notation run_pass := (run_pass vty truth fold opty ipa).
  Notation returns := (returns truth opsem elems rebuild).
  Notation app := (app truth opsem elems rebuild).
  Implicit Types (M : gmap name func).

  (** What is folded at compile time is what the operation computes. *)
  Definition folding_right : Prop := ∀ o cs c, fold o cs = Some c → opsem o cs = Some c.

  Lemma wf_init M (E : nat → nat → Prop) :
    well_formed M → (∀ n F k g t, M !! n = Some F → k ∈ (calls_of (body F)).*1 \/ k ∈ (maps_of (body F)).*1 → sites F !! k = Some (g, t) → E n.1 g.1) →
    ∀ n F, M !! n = Some F → n.2 = [] /\ NoDup (ids (body F)) /\
      (∀ k es, (k, es) ∈ calls_of (body F) → ∃ (g : name) (t : ty), sites F !! k = Some (g, t) /\ is_Some (M !! g) /\ E n.1 g.1) /\
      (∀ k e, (k, e) ∈ maps_of (body F) → ∃ (g : name) (t : ty), sites F !! k = Some (g, t) /\ is_Some (M !! g) /\ E n.1 g.1).
  Proof.
    intros [_ H] HE n F HF. destruct (H _ _ HF) as (H1 & H2 & H3 & H4). split_and!; [done|done|..].
    - intros k es Hk. destruct (H3 _ _ Hk) as (g & t & G & Hs & HG & _). exists g, t. split_and!; eauto. eapply HE; [done| |done].
      left. apply elem_of_list_fmap. by exists (k, es).
    - intros k e Hk. destruct (H4 _ _ Hk) as (g & t & G & Hs & HG & _). exists g, t. split_and!; eauto. eapply HE; [done| |done].
      right. apply elem_of_list_fmap. by exists (k, e).
  Qed.

  (** In a closed part of a program all functions compute the same. *)
  Lemma closed_app M s K E d n vs : Inv truth opsem elems rebuild M E K s → closed (result s) → is_Some (result s !! n) →
    app (result s) d n vs = app (fns s) d n vs.
  Proof.
    intros HI Hc. revert n vs. induction d as [|d IH]; intros n vs [F HF]; [done|]. rewrite !app_S, HF.
    assert (HF' : fns s !! n = Some F) by (unfold result in HF; by apply map_filter_lookup_Some in HF as [? _]).
    rewrite HF'. cbn [mbind option_bind]. apply ev_sites; [..|done].
    - intros k es vs' Hk _. destruct (i_call _ _ _ _ _ _ _ _ HI _ _ _ _ HF' Hk) as (g & t & Hs & _). rewrite Hs. cbn. apply IH.
      eapply Hc; [exact HF| |exact Hs]. left. apply elem_of_list_fmap. by exists (k, es).
    - intros k e x Hk. destruct (i_map _ _ _ _ _ _ _ _ HI _ _ _ _ HF' Hk) as (g & t & Hs & _). rewrite Hs. cbn. apply IH.
      eapply Hc; [exact HF| |exact Hs]. right. apply elem_of_list_fmap. by exists (k, e).
  Qed.

  (** ** The specialized program returns what the original returns, whenever no function that it still calls has been removed. This
      holds for all programs, with typed and untyped, also recursive functions, and for every order of visiting. *)
  Theorem C76_specialization_keeps_the_value M gas order s vs v :
    folding_right → well_formed M → run_pass gas order M = POk s → closed (result s) → (returns (result s) main vs v ↔ returns M main vs v).
  Proof.
    intros Hf Hwf Hr Hc. pose proof (wf_init M (fun _ _ => True) Hwf (fun _ _ _ _ _ _ _ _ => I)) as Hi.
    pose proof (init_inv truth opsem elems rebuild M (fun _ _ => True) Hi) as HI0.
    destruct (run_pass_inv vty truth fold opty opsem elems rebuild Hf ipa M (fun _ _ => True) gas order s HI0 Hr) as [K HI].
    assert (Hmain : is_Some (fns s !! main)).
    { destruct Hwf as [(F & HF & _) _].
      assert (H : ∃ F', fns s !! main = Some F'); [|done].
      unfold UdfModel.run_pass in Hr. assert (Hp : (∃ K, Inv truth opsem elems rebuild M (fun _ _ => True) K s) /\ is_Some (fns s !! main)); [|apply Hp].
      eapply (pfold_inv (fun s => (∃ K, Inv truth opsem elems rebuild M (fun _ _ => True) K s) /\ is_Some (fns s !! main))); [| |exact Hr].
      - intros n s1 s2 _ [HK [X HX]] H. split; [by eapply run_entry_inv|]. unfold run_entry in H. destruct (fns s1 !! n) as [Y|] eqn:HY; [|done].
        destruct (_ || _); [injection H as <-; by exists X|]. destruct HK as [K1 HK1].
        destruct (spec_fn_keeps vty truth fold opty opsem elems rebuild Hf ipa M (fun _ _ => True) gas n _ _ (ex_intro _ _ (Inv_infer _ _ _ _ _ _ _ Hf _ _ _ _ _ _ HK1 HY)) H) as [_ HX2].
        assert (HX1 : is_Some (fns (set_fn n (infer_fn vty truth fold opty Y) s1) !! main)).
        { cbn. destruct (decide (main = n)) as [<-|Hn]; [rewrite lookup_insert; eauto|rewrite lookup_insert_ne by done; eauto]. }
        destruct HX1 as [Z HZ]. destruct (HX2 _ _ HZ) as (Z' & HZ' & _). by exists Z'.
      - split; [by eexists|]. cbn. by exists F. }
    assert (Hres : is_Some (result s !! main)).
    { destruct Hmain as [F HF]. exists F. unfold result. apply map_filter_lookup_Some. split; [done|]. done. }
    unfold UdfSpec.returns. split; intros [d Hd]; exists d.
    - rewrite (closed_app M s K _ d main vs HI Hc Hres) in Hd. destruct Hmain as [F HF]. rewrite (i_app _ _ _ _ _ _ _ _ HI main F d vs HF) in Hd; [done|].
      intros i x. by rewrite (i_orig _ _ _ _ _ _ _ _ HI main).
    - rewrite (closed_app M s K _ d main vs HI Hc Hres). destruct Hmain as [F HF]. rewrite (i_app _ _ _ _ _ _ _ _ HI main F d vs HF); [done|].
      intros i x. by rewrite (i_orig _ _ _ _ _ _ _ _ HI main).
  Qed.

  Lemma no_map_args M : no_map_passed M → ∀ n F, M !! n = Some F → args_ok (body F).
  Proof. intros H n F HF k es Hk. apply bind_nil. intros e He. by eapply H. Qed.

  (** ** If every function other than main has a parameter of unknown type or a matrix parameter: every function that the specialized
      program calls is in it, and the arguments of every call and map have the types of the parameters. *)
  Theorem C76_every_called_function_is_there M gas order s :
    well_formed M → all_templates M → no_map_passed M → visits_all order M → run_pass gas order M = POk s → closed (result s).
  Proof.
    intros Hwf Hat Hno Ho Hr. assert (Hm : main ∈ order) by (apply Ho; destruct Hwf as [(F & HF & _) _]; eauto).
    destruct (run_pass_top vty truth fold opty ipa M false Hwf Hat (no_map_args M Hno) ltac:(done) gas order s (fun n Hn => proj1 (Ho n) Hn) Hm Hr) as [HT Hv].
    intros n F k g t HF Hk Hs. destruct (kept_done vty opty M false s n F HT Hv HF) as (HF' & Hc & Hmp). destruct HT as [HJ _].
    destruct Hk as [Hk|Hk]; apply elem_of_list_fmap in Hk as ([k' x] & -> & Hk).
    - destruct (Hc _ _ Hk) as (v & t' & V & Hs' & Hcal & HV & _). cbn in Hs. rewrite Hs in Hs'. injection Hs' as <- <-. exists V. by eapply called_kept.
    - destruct (Hmp _ _ Hk) as (v & t' & V & w & p & Hs' & Hcal & HV & _). cbn in Hs. rewrite Hs in Hs'. injection Hs' as <- <-. exists V. by eapply called_kept.
  Qed.
  Theorem C76_arguments_have_the_types_of_the_parameters M gas order s :
    well_formed M → all_templates M → no_map_passed M → visits_all order M → run_pass gas order M = POk s →
    arguments_agree vty opty (result s) /\ maps_agree vty opty (result s).
  Proof.
    intros Hwf Hat Hno Ho Hr. assert (Hm : main ∈ order) by (apply Ho; destruct Hwf as [(F & HF & _) _]; eauto).
    destruct (run_pass_top vty truth fold opty ipa M false Hwf Hat (no_map_args M Hno) ltac:(done) gas order s (fun n Hn => proj1 (Ho n) Hn) Hm Hr) as [HT Hv].
    split.
    - intros n F k es g t HF Hk Hs. destruct (kept_done vty opty M false s n F HT Hv HF) as (HF' & Hc & _). destruct HT as [HJ _].
      destruct (Hc _ _ Hk) as (v & t' & V & Hs' & Hcal & HV & Hp & _). rewrite Hs in Hs'. injection Hs' as <- <-. exists V. split; [by eapply called_kept|done].
    - intros n F k e g t HF Hk Hs. destruct (kept_done vty opty M false s n F HT Hv HF) as (HF' & _ & Hmp). destruct HT as [HJ _].
      destruct (Hmp _ _ Hk) as (v & t' & V & w & p & Hs' & Hcal & HV & Ht & Hp & _). rewrite Hs in Hs'. injection Hs' as <- <-. exists V, w, p.
      split; [by eapply called_kept|done].
  Qed.
  (** If moreover no function returns the result of a call: every call has the type that the function returns. *)
  Theorem C76_results_have_the_types_of_the_calls M gas order s :
    well_formed M → all_templates M → no_map_passed M → own_results M → visits_all order M → run_pass gas order M = POk s →
    calls_agree vty opty (result s) /\ map_results_agree vty opty (result s).
  Proof.
    intros Hwf Hat Hno How Ho Hr. assert (Hm : main ∈ order) by (apply Ho; destruct Hwf as [(F & HF & _) _]; eauto).
    destruct (run_pass_top vty truth fold opty ipa M true Hwf Hat (no_map_args M Hno) (fun _ => How) gas order s (fun n Hn => proj1 (Ho n) Hn) Hm Hr) as [HT Hv].
    split.
    - intros n F k es g t HF Hk Hs. destruct (kept_done vty opty M true s n F HT Hv HF) as (HF' & Hc & _). destruct HT as [HJ _].
      destruct (Hc _ _ Hk) as (v & t' & V & Hs' & Hcal & HV & Hp & Hrs). rewrite Hs in Hs'. injection Hs' as <- <-. exists V. split; [by eapply called_kept|].
      split; [done|by apply Hrs].
    - intros n F k e g t HF Hk Hs. destruct (kept_done vty opty M true s n F HT Hv HF) as (HF' & _ & Hmp). destruct HT as [HJ _].
      destruct (Hmp _ _ Hk) as (v & t' & V & w & p & Hs' & Hcal & HV & Ht & Hp & Hrs). rewrite Hs in Hs'. injection Hs' as <- <-. exists V, w, p.
      split; [by eapply called_kept|]. split; [done|by apply Hrs].
  Qed.
  (** Together: such a program is compiled to one that returns what the script says. *)
  Theorem C76_specialized_program_is_the_program M gas order s vs v :
    folding_right → well_formed M → all_templates M → no_map_passed M → visits_all order M → run_pass gas order M = POk s →
    (returns (result s) main vs v ↔ returns M main vs v).
  Proof. intros. eapply C76_specialization_keeps_the_value; [done|done|done|]. by eapply C76_every_called_function_is_there. Qed.

  (** ** Without recursion, the pass comes to an end: typed and untyped functions, any constants. *)
  Theorem C76_specialization_ends M rank gas order :
    well_formed M → nonrecursive M rank → (∀ n, n ∈ order → rank n.1 < gas) → run_pass gas order M ≠ POut.
  Proof.
    intros Hwf Hnr Ho. set (E := fun a b => rank b < rank a). pose proof (wf_init M E Hwf Hnr) as Hi.
    pose proof (init_inv truth fold (fun _ : val => None) (fun _ _ => None) M E Hi) as HI0.
    apply (run_pass_stops vty truth fold opty fold (fun _ => None) (fun _ _ => None) ltac:(done) ipa M E rank); done.
  Qed.
End props.

(** ** Resolving a call *)
Lemma compatible_spec a p : compatible a p = true ↔ may_be a p.
Proof.
  unfold compatible. rewrite !orb_true_iff, !bool_decide_eq_true. split.
  - intros [[[->| ->]| ->]|H]; [constructor..|]. destruct a, p; try done. apply orb_true_iff in H. rewrite !bool_decide_eq_true in H. destruct H as [->| ->]; constructor.
  - intros []; [tauto|tauto|tauto|right..]; apply orb_true_iff; rewrite !bool_decide_eq_true; tauto.
Qed.
Lemma all_compatible_spec args pars : all_compatible args pars = true ↔ Forall2 may_be args pars.
Proof.
  revert pars. induction args as [|a args IH]; intros [|p pars]; cbn.
  - split; [constructor|done].
  - split; [done|intros H; inversion H].
  - split; [done|intros H; inversion H].
  - rewrite andb_true_iff, compatible_spec, IH. split; [intros []; by constructor|intros H; by inversion H].
Qed.
(** A call is one of the first definition, in the order of the script, that fits the types of its arguments as far as they are known; it
    is rejected if there is none. *)
Theorem C76_call_is_resolved_to_the_first_that_fits defs args :
  match find_udf defs args with
  | Some n => ∃ l1 pars l2, defs = l1 ++ (n, pars) :: l2 /\ Forall2 may_be args pars /\ Forall (fun d => ¬ Forall2 may_be args d.2) l1
  | None => Forall (fun d => ¬ Forall2 may_be args d.2) defs
  end.
Proof.
  induction defs as [|[n pars] defs IH]; cbn; [constructor|]. destruct (all_compatible args pars) eqn:E.
  - exists [], pars, defs. split_and!; [done|by apply all_compatible_spec|constructor].
  - assert (Hn : ¬ Forall2 may_be args pars) by (rewrite <- all_compatible_spec; by rewrite E).
    destruct (find_udf defs args) as [m|].
    + destruct IH as (l1 & p & l2 & -> & H1 & H2). exists ((n, pars) :: l1), p, l2. split_and!; [done|done|by constructor].
    + by constructor.
Qed.
(** With known types only, it is one with exactly these types. *)
Theorem C76_known_types_resolve_exactly defs args n :
  Forall known args → Forall (fun d => Forall known d.2) defs → find_udf defs args = Some n → (n, args) ∈ defs.
Proof.
  intros Ha Hd Hf. pose proof (C76_call_is_resolved_to_the_first_that_fits defs args) as H. rewrite Hf in H. destruct H as (l1 & pars & l2 & -> & H & _).
  assert (Hp : Forall known pars) by (rewrite Forall_app, Forall_cons in Hd; tauto). assert (args = pars) as ->; [|apply elem_of_app; right; by left].
  clear -Ha Hp H. induction H as [|a p args pars Hm _ IH]; [done|]. apply Forall_cons in Ha as [Ha1 Ha2]. apply Forall_cons in Hp as [Hp1 Hp2].
  f_equal; [|by apply IH]. by destruct Hm.
Qed.
(** A definition without types that comes first takes all calls, also those for which there is one with exactly their types. *)
Theorem C76_first_untyped_takes_all_refuted n defs args : find_udf ((n, replicate (length args) Unk) :: defs) args = Some n.
Proof.
  cbn. assert (all_compatible args (replicate (length args) Unk) = true) as ->; [|done]. apply all_compatible_spec.
  induction args as [|a args IH]; cbn; [constructor|]. constructor; [constructor|done].
Qed.
(** Where the type of an argument is not known (in a function without types), the first definition is taken, whatever the value will be. *)
Theorem C76_unknown_argument_takes_the_first_refuted n p defs : find_udf ((n, [p]) :: defs) [Unk] = Some n.
Proof. cbn. by rewrite (proj2 (compatible_spec Unk p) (may_unknown_arg p)). Qed.

(** ** A small language for examples: integers, floating-point numbers and columns of integers. *)
Inductive cval := CI (n : nat) | CF (n : nat) | CM (l : list nat).
Inductive cop := OAdd | ODec | ORnd | OCol | OHalf.
Definition cvty (v : cval) : ty := match v with CI _ => Sca 0 | CF _ => Sca 1 | CM l => Mat (Some 0) (Some (length l), Some 1, None, 0) end.
Definition ctruth (v : cval) : option bool := match v with CI n => Some (negb (n =? 0)) | _ => None end.
(** ORnd is a number that is not known before the program runs. *)
Definition copsem (o : cop) (vs : list cval) : option cval :=
  match o, vs with
  | OAdd, [CI a; CI b] => Some (CI (a + b))
  | OAdd, [CF a; CF b] => Some (CF (a + b))
  | OAdd, [CM a; CM b] => Some (CM (zip_with Nat.add a b))
  | ODec, [CI a] => Some (CI (a - 1))
  | ORnd, [] => Some (CI 7)
  | OCol, [] => Some (CM [1; 2; 3])
  | OHalf, [CI a] => Some (CF (a / 2))
  | _, _ => None
  end.
Definition cfold (o : cop) (vs : list cval) : option cval :=
  match o, vs with OAdd, [CI a; CI b] => Some (CI (a + b)) | ODec, [CI a] => Some (CI (a - 1)) | _, _ => None end.
Definition copty (o : cop) (ts : list ty) : ty :=
  match o, ts with
  | OAdd, [a; b] => if decide (a = Unk \/ b = Unk) then Unk else common a b
  | ODec, [a] => a
  | ORnd, [] => Sca 0
  | OCol, [] => Mat (Some 0) (Some 3, Some 1, None, 0)
  | OHalf, [_] => Sca 1
  | _, _ => Unk
  end.
Definition celems (v : cval) : option (list cval) := match v with CM l => Some (CI <$> l) | _ => None end.
Definition crebuild (_ : cval) (ys : list cval) : option cval := l ← mapM (fun y => match y with CI n => Some n | _ => None end) ys; Some (CM l).
Lemma cfold_right : folding_right cfold copsem.
Proof. intros o cs c. unfold cfold, copsem. by repeat case_match. Qed.
Notation crun := (run_pass cvty ctruth cfold copty).
Definition f_ : name := (1, []).
Definition g_ : name := (2, []).
Definition h_ : name := (3, []).
Definition U1 (b : exp cval cop) (S : list site) : func cval cop := Func [Unk] Unk S b.

(** A program that meets the hypotheses: def h(x) = x + 1; def g(x) = x + x; def f(x, y) = if(h(x)) map(col, h) + col else
    col + col; main: f(rnd, 5) + g(col). *)
Definition ex_main : func cval cop :=
  Func [] Unk [(f_, Unk); (g_, Unk)] (Op OAdd [Call 0 [Op ORnd []; Cst (CI 5)]; Call 1 [Op OCol []]]).
Definition ex_f : func cval cop :=
  Func [Unk; Unk] Unk [(h_, Unk); (h_, Unk)] (If (Call 0 [Var 0]) (Op OAdd [MapE 1 (Op OCol []); Op OCol []]) (Op OAdd [Op OCol []; Op OCol []])).
Definition ex_g : func cval cop := U1 (Op OAdd [Var 0; Var 0]) [].
Definition ex_h : func cval cop := U1 (Op OAdd [Var 0; Cst (CI 1)]) [].
Definition ex : gmap name (func cval cop) := list_to_map [(main, ex_main); (f_, ex_f); (g_, ex_g); (h_, ex_h)].

Lemma ex_lookup n F : ex !! n = Some F → (n, F) ∈ [(main, ex_main); (f_, ex_f); (g_, ex_g); (h_, ex_h)].
Proof. intros H. by apply elem_of_list_to_map_2 in H. Qed.
Ltac all_fns H := apply ex_lookup in H; repeat (apply elem_of_cons in H as [H|H]; [injection H as -> ->|]); [..|by apply elem_of_nil in H].
Lemma ex_wf : well_formed ex.
Proof.
  split; [by exists ex_main|]. intros n F HF. all_fns HF; (split; [done|]); cbn.
  - split_and!; [by apply (bool_decide_unpack _); vm_compute| |].
    + intros k es Hk. repeat (apply elem_of_cons in Hk as [Hk|Hk]; [injection Hk as -> ->|]); [| |by apply elem_of_nil in Hk].
      * by exists f_, Unk, ex_f.
      * by exists g_, Unk, ex_g.
    + intros k e Hk. by apply elem_of_nil in Hk.
  - split_and!; [by apply (bool_decide_unpack _); vm_compute| |].
    + intros k es Hk. apply elem_of_cons in Hk as [Hk|Hk]; [injection Hk as -> ->|by apply elem_of_nil in Hk]. by exists h_, Unk, ex_h.
    + intros k e Hk. apply elem_of_cons in Hk as [Hk|Hk]; [injection Hk as -> ->|by apply elem_of_nil in Hk]. by exists h_, Unk, ex_h.
  - split_and!; [constructor|intros k es Hk; by apply elem_of_nil in Hk|intros k e Hk; by apply elem_of_nil in Hk].
  - split_and!; [constructor|intros k es Hk; by apply elem_of_nil in Hk|intros k e Hk; by apply elem_of_nil in Hk].
Qed.
Theorem C76_example :
  well_formed ex /\ all_templates ex /\ no_map_passed ex /\ (∃ rank, nonrecursive ex rank) /\
  visits_all [f_; g_; h_; main] ex /\
  ∃ s, crun true 9 [f_; g_; h_; main] ex = POk s /\ size (result s) = 4 /\
       returns ctruth copsem celems crebuild ex main [] (CM [5; 9; 13]).
Proof.
  split_and!.
  - exact ex_wf.
  - intros n F HF Hn. all_fns HF; done.
  - intros n F k es e HF Hk He. all_fns HF; cbn in Hk;
      repeat (apply elem_of_cons in Hk as [Hk|Hk]; [injection Hk as -> ->; repeat (apply elem_of_cons in He as [->|He]; [done|]); by apply elem_of_nil in He|]);
      by apply elem_of_nil in Hk.
  - exists (fun a => match a with 0 => 2 | 1 => 1 | _ => 0 end). intros n F k g t HF Hk Hs. all_fns HF; cbn in Hk, Hs |- *.
    + destruct k as [|[|k]]; cbn in Hs; [injection Hs as <- <-; cbn; lia..|done].
    + destruct k as [|[|k]]; cbn in Hs; [injection Hs as <- <-; cbn; lia..|done].
    + done.
    + done.
  - intros n. split.
    + intros Hn. repeat (apply elem_of_cons in Hn as [->|Hn]; [vm_compute; by eexists|]). by apply elem_of_nil in Hn.
    + intros [F HF]. all_fns HF; by apply (bool_decide_unpack _); vm_compute.
  - destruct (crun true 9 [f_; g_; h_; main] ex) as [s| |] eqn:E; [|by vm_compute in E..]. exists s. split; [done|].
    split; [|exists 3; by vm_compute].
    assert (H : match crun true 9 [f_; g_; h_; main] ex with POk s => size (result s) = 4 | _ => True end) by (vm_compute; reflexivity).
    by rewrite E in H.
Qed.
(** A program whose functions do not return results of calls: def h(x) = x + 1; def f(x, y) = if(h(x)) y + y else y + y. *)
Definition ex2 : gmap name (func cval cop) := list_to_map
  [(main, Func [] Unk [(f_, Unk); (h_, Mat None (Some 3, Some 1, None, 0))] (Op OAdd [MapE 1 (Op OCol []); Call 0 [Op ORnd []; Op OCol []]]));
   (f_, Func [Unk; Unk] Unk [(h_, Unk)] (If (Call 0 [Var 0]) (Op OAdd [Var 1; Var 1]) (Op OAdd [Var 1; Var 1]))); (h_, ex_h)].
Theorem C76_example_results :
  own_results ex2 /\ ∃ s F f', crun true 9 [f_; h_; main] ex2 = POk s /\ result s !! main = Some F /\ sites F !! 0 = Some (f', Mat (Some 0) (Some 3, Some 1, None, 0)).
Proof.
  split.
  - intros n F HF Hn. unfold ex2 in HF. apply elem_of_list_to_map_2 in HF. repeat (apply elem_of_cons in HF as [HF|HF]; [injection HF as -> ->; done|]).
    by apply elem_of_nil in HF.
  - assert (H : match crun true 9 [f_; h_; main] ex2 with POk s => match result s !! main with
       | Some F => match sites F !! 0 with Some (f', t) => t = Mat (Some 0) (Some 3, Some 1, None, 0) | None => False end | _ => False end | _ => False end) by (vm_compute; done).
    destruct (crun true 9 [f_; h_; main] ex2) as [s| |]; [|done..]. destruct (result s !! main) as [F|] eqn:HF; [|done].
    destruct (sites F !! 0) as [[f' t]|] eqn:Hs; [|done]. subst t. by exists s, F, f'.
Qed.

(** ** Where it fails *)
(** A typed function that is called once with a constant and once without is removed, although it is still called:
    def f(x:si64) = x + x; main: f(3) + f(rnd). With and without the propagation of constants. *)
Definition typed1 (t : ty) (b : exp cval cop) (S : list site) : func cval cop := Func [t] Unk S b.
Definition p1 : gmap name (func cval cop) := list_to_map
  [(main, Func [] Unk [(f_, Sca 0); (f_, Sca 0)] (Op OAdd [Call 0 [Cst (CI 3)]; Call 1 [Op ORnd []]])); (f_, typed1 (Sca 0) (Op OAdd [Var 0; Var 0]) [])].
Theorem C76_typed_function_called_with_a_constant_is_removed_refuted ipa order :
  order = [main; f_] \/ order = [f_; main] →
  ∃ s F, crun ipa 9 order p1 = POk s /\ result s !! main = Some F /\ sites F !! 1 = Some (f_, Sca 0) /\ result s !! f_ = None /\
    returns ctruth copsem celems crebuild p1 main [] (CI 20) /\ ¬ ∃ v, returns ctruth copsem celems crebuild (result s) main [] v.
Proof.
  intros Ho.
  assert (H : match crun ipa 9 order p1 with POk s => match result s !! main with Some F =>
                sites F !! 1 = Some (f_, Sca 0) /\ body F = Op OAdd [Call 0 [Cst (CI 3)]; Call 1 [Op ORnd []]] /\ result s !! f_ = None | None => False end | _ => False end).
  { destruct Ho as [->| ->], ipa; vm_compute; done. }
  destruct (crun ipa 9 order p1) as [s| |]; [|done..]. destruct (result s !! main) as [F|] eqn:HF; [|done]. destruct H as (Hs & Hb & Hn).
  exists s, F. split_and!; [done..|exists 3; by vm_compute|]. intros (v & [|d] & Hd); [done|]. rewrite app_S, HF in Hd. cbn [mbind option_bind] in Hd. rewrite Hb in Hd.
  cbn [ev mapM] in Hd. rewrite Hs in Hd. cbn in Hd. assert (Hnone : app ctruth copsem celems crebuild (result s) d f_ [CI 7] = None) by (destruct d; [done|rewrite app_S, Hn; done]).
  rewrite Hnone in Hd. cbn in Hd. revert Hd. destruct (sites F !! 0) as [gt|]; cbn; [|done]. by destruct (UdfSpec.app ctruth copsem celems crebuild (result s) d gt.1 [CI 3]).
Qed.
(** A function without types that returns the result of another one: the call keeps the unknown type.
    def g(x) = x + x; def f(x) = g(x); main: f(rnd). *)
Definition p2 : gmap name (func cval cop) := list_to_map
  [(main, Func [] Unk [(f_, Unk)] (Call 0 [Op ORnd []])); (f_, U1 (Call 0 [Var 0]) [(g_, Unk)]); (g_, U1 (Op OAdd [Var 0; Var 0]) [])].
Theorem C76_result_of_a_result_stays_unknown_refuted :
  ∃ s F f' F', crun true 9 [main; f_; g_] p2 = POk s /\ result s !! main = Some F /\ sites F !! 0 = Some (f', Unk) /\
    result s !! f' = Some F' /\ res F' = Sca 0 /\ ¬ calls_agree cvty copty (result s).
Proof.
  assert (H : match crun true 9 [main; f_; g_] p2 with POk s => match result s !! main, result s !! ((1, [1]) : name) with
     | Some F, Some F' => sites F !! 0 = Some ((1, [1]), Unk) /\ body F = Call 0 [Op ORnd []] /\ res F' = Sca 0 | _, _ => False end | _ => False end) by (vm_compute; done).
  destruct (crun true 9 [main; f_; g_] p2) as [s| |]; [|done..]. destruct (result s !! main) as [F|] eqn:HF; [|done].
  destruct (result s !! ((1, [1]) : name)) as [F'|] eqn:HF'; [|done]. destruct H as (Hs & Hb & Hr).
  exists s, F, (1, [1]), F'. split_and!; [done..|]. intros Hc. destruct (Hc main F 0 [Op ORnd []] (1, [1]) Unk HF) as (G & HG & _ & Hres); [rewrite Hb; by left|done|].
  rewrite HF' in HG. injection HG as <-. by rewrite Hr in Hres.
Qed.
(** A typed function that is called by an untyped one is not checked against the types of the arguments.
    def g(y:f64) = y + y; def f(x) = g(x); main: f(rnd), where rnd is an integer. *)
Definition p3 : gmap name (func cval cop) := list_to_map
  [(main, Func [] Unk [(f_, Unk)] (Call 0 [Op ORnd []])); (f_, U1 (Call 0 [Var 0]) [(g_, Sca 1)]); (g_, typed1 (Sca 1) (Op OAdd [Var 0; Var 0]) [])].
Theorem C76_arguments_of_typed_functions_are_not_checked_refuted :
  ∃ s F f' F' G, crun true 9 [main; f_; g_] p3 = POk s /\ result s !! main = Some F /\ sites F !! 0 = Some (f', Sca 1) /\
    result s !! f' = Some F' /\ params F' = [Sca 0] /\ body F' = Call 0 [Var 0] /\ sites F' !! 0 = Some (g_, Sca 1) /\ result s !! g_ = Some G /\ params G = [Sca 1].
Proof.
  assert (H : match crun true 9 [main; f_; g_] p3 with POk s => match result s !! main, result s !! ((1, [1]) : name), result s !! g_ with
     | Some F, Some F', Some G => sites F !! 0 = Some ((1, [1]), Sca 1) /\ params F' = [Sca 0] /\ body F' = Call 0 [Var 0] /\ sites F' !! 0 = Some (g_, Sca 1) /\ params G = [Sca 1]
     | _, _, _ => False end | _ => False end) by (vm_compute; done).
  destruct (crun true 9 [main; f_; g_] p3) as [s| |]; [|done..]. destruct (result s !! main) as [F|] eqn:HF; [|done].
  destruct (result s !! ((1, [1]) : name)) as [F'|] eqn:HF'; [|done]. destruct (result s !! g_) as [G|] eqn:HG; [|done].
  exists s, F, (1, [1]), F', G. tauto.
Qed.
(** The maps of a function are treated after all of its calls, so a call with the result of a map among its arguments is specialized for
    an unknown element type. def h(x) = x + x; def g(X:matrix) = X; main: g(map(col, h)). *)
Definition p4 : gmap name (func cval cop) := list_to_map
  [(main, Func [] Unk [(g_, Unk); (h_, Mat None (Some 3, Some 1, None, 0))] (Call 0 [MapE 1 (Op OCol [])]));
   (g_, Func [Mat None (None, None, None, 0)] Unk [] (Var 0)); (h_, U1 (Op OAdd [Var 0; Var 0]) [])].
Theorem C76_call_with_a_map_is_specialized_too_early_refuted :
  ∃ s F g' G p, crun true 9 [main; g_; h_] p4 = POk s /\ result s !! main = Some F /\ body F = Call 0 [MapE 1 (Op OCol [])] /\
    sites F !! 0 = Some (g', Mat None p) /\ result s !! g' = Some G /\ params G = [Mat None p] /\
    typ cvty copty (params F) (sites F) (MapE 1 (Op OCol [])) = Mat (Some 0) p.
Proof.
  assert (H : match crun true 9 [main; g_; h_] p4 with POk s => match result s !! main, result s !! ((2, [1]) : name) with
     | Some F, Some G => body F = Call 0 [MapE 1 (Op OCol [])] /\ sites F !! 0 = Some ((2, [1]), Mat None (Some 3, Some 1, None, 0)) /\
         params G = [Mat None (Some 3, Some 1, None, 0)] /\ typ cvty copty (params F) (sites F) (MapE 1 (Op OCol [])) = Mat (Some 0) (Some 3, Some 1, None, 0)
     | _, _ => False end | _ => False end) by (vm_compute; done).
  destruct (crun true 9 [main; g_; h_] p4) as [s| |]; [|done..]. destruct (result s !! main) as [F|] eqn:HF; [|done].
  destruct (result s !! ((2, [1]) : name)) as [G|] eqn:HG; [|done]. exists s, F, (2, [1]), G, (Some 3, Some 1, None, 0). tauto.
Qed.
(** The result depends on the order in which a hash table gives the functions: g is an untyped function that the typed functions f and k
    call; main calls f with a constant and k without one. If f is visited before main, the version of g that k calls is removed. *)
Definition k_ : name := (4, []).
Definition p5 : gmap name (func cval cop) := list_to_map
  [(main, Func [] Unk [(f_, Sca 0); (k_, Sca 0)] (Op OAdd [Call 0 [Cst (CI 3)]; Call 1 [Op ORnd []]]));
   (f_, typed1 (Sca 0) (Call 0 [Var 0]) [(g_, Unk)]); (k_, typed1 (Sca 0) (Call 0 [Var 0]) [(g_, Unk)]); (g_, U1 (Op OAdd [Var 0; Var 0]) [])].
Definition missing (M : gmap name (func cval cop)) : list (name * name) :=
  map_to_list M ≫= fun nF => ((calls_of (body nF.2)).*1 ++ (maps_of (body nF.2)).*1) ≫= fun k =>
    match sites nF.2 !! k with Some (g, _) => match M !! g with Some _ => [] | None => [(nF.1, g)] end | None => [] end.
Lemma missing_closed M : missing M = [] ↔ closed M.
Proof.
  unfold missing. rewrite bind_nil. split.
  - intros H n F k g t HF Hk Hs. specialize (H (n, F)). rewrite elem_of_map_to_list in H. specialize (H HF). rewrite bind_nil in H.
    specialize (H k). rewrite elem_of_app in H. specialize (H Hk). cbn in H. rewrite Hs in H. destruct (M !! g); [eauto|done].
  - intros H [n F] HF. apply elem_of_map_to_list in HF. apply bind_nil. intros k Hk. cbn in Hk |- *. destruct (sites F !! k) as [[g t]|] eqn:Hs; [|done].
    destruct (H _ _ _ _ _ HF (proj1 (elem_of_app _ _ _) Hk) Hs) as [G ->]. done.
Qed.
Theorem C76_result_depends_on_the_order_refuted :
  ∃ s1 s2, crun true 9 [main; f_; k_; g_] p5 = POk s1 /\ crun true 9 [f_; k_; main; g_] p5 = POk s2 /\ closed (result s1) /\ ¬ closed (result s2).
Proof.
  assert (H1 : match crun true 9 [main; f_; k_; g_] p5 with POk s => missing (result s) = [] | _ => False end) by (vm_compute; done).
  assert (H2 : match crun true 9 [f_; k_; main; g_] p5 with POk s => missing (result s) ≠ [] | _ => False end) by (vm_compute; done).
  destruct (crun true 9 [main; f_; k_; g_] p5) as [s1| |]; [|done..]. destruct (crun true 9 [f_; k_; main; g_] p5) as [s2| |]; [|done..].
  exists s1, s2. rewrite <- !missing_closed. done.
Qed.
(** The declared type of the result is not that of the specialized function: def f(x) -> si64 = half(x) is one to f64. *)
Definition p6 : gmap name (func cval cop) := list_to_map
  [(main, Func [] Unk [(f_, Sca 0)] (Call 0 [Op ORnd []])); (f_, Func [Unk] (Sca 0) [] (Op OHalf [Var 0]))].
Theorem C76_declared_result_type_is_dropped_refuted :
  ∃ s f' F', crun true 9 [main; f_] p6 = POk s /\ result s !! f' = Some F' /\ f'.1 = f_.1 /\ res F' = Sca 1.
Proof.
  assert (H : match crun true 9 [main; f_] p6 with POk s => match result s !! ((1, [1]) : name) with Some F => res F = Sca 1 | _ => False end | _ => False end) by (vm_compute; done).
  destruct (crun true 9 [main; f_] p6) as [s| |]; [|done..]. destruct (result s !! ((1, [1]) : name)) as [F'|] eqn:HF'; [|done]. by exists s, (1, [1]), F'.
Qed.

(** ** A recursive function with a constant argument that it counts up: the pass never ends.
    def f(i:si64, x:si64) = if(x) f(i + 1, x - 1) else i; main: f(0, rnd), which returns 7. *)
Definition rf : func cval cop :=
  Func [Sca 0; Sca 0] (Sca 0) [(f_, Sca 0)] (If (Var 1) (Call 0 [Op OAdd [Var 0; Cst (CI 1)]; Op ODec [Var 1]]) (Var 0)).
Definition p7 : gmap name (func cval cop) := list_to_map [(main, Func [] Unk [(f_, Sca 0)] (Call 0 [Cst (CI 0); Op ORnd []])); (f_, rf)].
Notation rclone c := (Func [Sca 0; Sca 0] (Sca 0) [(f_, Sca 0)] (If (Var 1) (Call 0 [Cst (CI (c + 1)); Op ODec [Var 1]]) (Cst (CI c)))).
Lemma p7_create s c es : es = [Cst (CI c); Op ODec [Var 1]] \/ es = [Cst (CI c); Op ORnd []] →
  create_or_reuse cvty ctruth cfold copty true s f_ rf [Sca 0; Sca 0] es =
  Some (St (<[(1, [next s]) := rclone c]> (fns s)) (versions s) (visited s) (called s) (f_ :: templs s) (S (next s)), (1, [next s])).
Proof. intros [->| ->]; reflexivity. Qed.
Lemma p7_diverges gas : ∀ n s c, n ∉ visited s → n ≠ f_ → fns s !! n = Some (rclone c) → fns s !! f_ = Some rf →
  (∀ m, m ∈ visited s → Forall (fun x => x < next s) m.2) → Forall (fun x => x < next s) n.2 →
  spec_fn cvty ctruth cfold copty true gas n s = POut.
Proof.
  induction gas as [|gas IH]; intros n s c Hn Hnf HF Hf Hv Hfr; [done|]. cbn [spec_fn]. rewrite decide_False by done. rewrite HF.
  change (calls_of (body (rclone c))) with [(0, [Cst (CI (c + 1)); Op ODec [Var 1]])] at 1. cbn [pfold].
  assert (Hs : step_call cvty ctruth cfold copty true (spec_fn cvty ctruth cfold copty true gas) n (0, [Cst (CI (c + 1)); Op ODec [Var 1]]) (add_visited n s) = POut);
    [|by rewrite Hs].
  unfold step_call. change (fns (add_visited n s)) with (fns s). rewrite HF.
  cbn [fst snd sites params res body]. change (([(f_, Sca 0)] : list site) !! 0) with (Some (f_, Sca 0)). cbv iota beta. rewrite Hf.
  change (is_template rf) with false. cbn [orb existsb is_const].
  change (typ cvty copty [Sca 0; Sca 0] [(f_, Sca 0)] <$> [Cst (CI (c + 1)); Op ODec [Var 1]]) with [Sca 0; Sca 0].
  rewrite (p7_create _ (c + 1)) by by left. cbn [fns]. rewrite lookup_insert. cbn [fst].
  change (res (rclone (c + 1))) with (Sca 0). rewrite decide_True by done. rewrite (IH _ _ (c + 1)); [done|..]; cbn [visited add_visited set_fn fns next].
  - intros Hin. apply elem_of_cons in Hin as [<-|Hin].
    + cbn in Hfr. apply Forall_inv in Hfr. lia.
    + apply Hv in Hin. cbn in Hin. apply Forall_inv in Hin. lia.
  - done.
  - rewrite lookup_insert_ne, lookup_insert; [done|]. intros ->. cbn in Hfr. apply Forall_inv in Hfr. lia.
  - rewrite lookup_insert_ne by done. rewrite lookup_insert_ne by done. done.
  - intros m Hin. apply elem_of_cons in Hin as [->|Hin]; (eapply Forall_impl; [first [exact Hfr|by apply Hv]|cbn; lia]).
  - cbn. constructor; [lia|constructor].
Qed.
Definition p7_main : func cval cop := Func [] Unk [(f_, Sca 0)] (Call 0 [Cst (CI 0); Op ORnd []]).
Lemma p7_main_diverges gas s : fns s !! main = Some p7_main → fns s !! f_ = Some rf → main ∉ visited s → main ∉ templs s →
  (∀ m, m ∈ visited s → m.2 = []) → next s = 1 → run_entry cvty ctruth cfold copty true gas main s = POut.
Proof.
  intros Hm Hf Hv Ht Hvis Hnx. unfold run_entry. rewrite Hm. rewrite (bool_decide_eq_false_2 _ Hv), (bool_decide_eq_false_2 _ Ht).
  change (is_template p7_main) with false. cbn [orb]. destruct gas as [|gas]; [done|]. cbn [spec_fn]. rewrite decide_False by done.
  cbn [fns set_fn]. rewrite lookup_insert. change (calls_of (body (infer_fn cvty ctruth cfold copty p7_main))) with [(0, [@Cst cval cop (CI 0); Op ORnd []])].
  cbn [pfold]. set (F1 := infer_fn cvty ctruth cfold copty p7_main). set (s1 := add_visited main (set_fn main F1 s)).
  assert (Hs : step_call cvty ctruth cfold copty true (spec_fn cvty ctruth cfold copty true gas) main (0, [Cst (CI 0); Op ORnd []]) s1 = POut); [|by rewrite Hs].
  assert (H1 : fns s1 !! main = Some F1) by (cbn; by rewrite lookup_insert).
  assert (H2 : fns s1 !! f_ = Some rf) by (cbn; by rewrite lookup_insert_ne).
  unfold step_call. rewrite H1. cbn [fst snd]. change (sites F1 !! 0) with (Some (f_, Sca 0)). cbv iota beta. rewrite H2.
  change (is_template rf) with false. cbn [orb existsb is_const].
  change (typ cvty copty (params F1) (sites F1) <$> [Cst (CI 0); Op ORnd []]) with [Sca 0; Sca 0].
  rewrite (p7_create s1 0) by by right. cbn [fns]. rewrite lookup_insert.
  change (res (rclone 0)) with (Sca 0). rewrite decide_True by done. change (next s1) with (next s). rewrite Hnx.
  rewrite (p7_diverges gas _ _ 0); [done|..]; cbn [visited add_visited set_fn fns next s1].
  - intros Hin. apply elem_of_cons in Hin as [Hin|Hin]; [done|]. by apply Hvis in Hin.
  - done.
  - rewrite lookup_insert_ne by done. by rewrite lookup_insert.
  - rewrite !lookup_insert_ne by done. done.
  - intros m Hin. apply elem_of_cons in Hin as [->|Hin]; [constructor|]. rewrite (Hvis _ Hin). constructor.
  - constructor; [lia|constructor].
Qed.
Theorem C76_counting_recursion_is_never_compiled_refuted gas order :
  order = [main; f_] \/ order = [f_; main] →
  crun true gas order p7 = POut /\ returns ctruth copsem celems crebuild p7 main [] (CI 7).
Proof.
  intros Ho. split; [|exists 20; by vm_compute]. destruct Ho as [->| ->]; unfold run_pass; cbn [pfold].
  - rewrite p7_main_diverges; [done|done|done|apply not_elem_of_nil|apply not_elem_of_nil|intros m Hm; by apply elem_of_nil in Hm|done].
  - destruct gas as [|[|gas]]; [done|done|].
    assert (Hf : run_entry cvty ctruth cfold copty true (S (S gas)) f_ (init p7) = POk (St (<[f_ := rf]> p7) [] [f_] [f_] [] 1)) by reflexivity.
    rewrite Hf. cbn [pbind pfold]. rewrite p7_main_diverges; [done|done|done|cbn; intros Hin; by apply elem_of_list_singleton in Hin|apply not_elem_of_nil|cbn; by intros m ->%elem_of_list_singleton|done].
Qed.

Print Assumptions C76_specialization_keeps_the_value.
Print Assumptions C76_every_called_function_is_there.
Print Assumptions C76_arguments_have_the_types_of_the_parameters.
Print Assumptions C76_results_have_the_types_of_the_calls.
Print Assumptions C76_specialization_ends.
Print Assumptions C76_call_is_resolved_to_the_first_that_fits.
Print Assumptions C76_counting_recursion_is_never_compiled_refuted.
