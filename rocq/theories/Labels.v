(** C75: what the compiler knows about the columns of frames is right, and simplifications by label do not change results. *)
From stdpp Require Import base numbers list strings sets relations.
From Coq Require Import Lia.
From Verif Require Import CppBase LabelsModel LabelsSpec LabelsProofs LabelsCanon.

Section theorems.
  Context {A : Type} (aty : A → vt).
  Notation frame := (list (string * A)).

  (** The inferred columns of the result of a program are those of the frame it computes: as many, the value types that are known are
      those of the columns, and the labels, if they are known, are those of the frame. *)
  Theorem C75_inferred_columns_are_those_of_the_result e t f :
    complete aty e → infer aty e = Ok t → run e = Ok f → right aty t f.
  Proof. intros Hc Hi Hr. exact (proj1 (infer_sound aty e t f Hc Hi Hr)). Qed.

  (** A program that computes a frame and whose labels are known is accepted by the inference. *)
  Theorem C75_programs_with_known_labels_are_accepted e f :
    complete aty e → known aty e → run e = Ok f → ∃ t, infer aty e = Ok t /\ right aty t f.
  Proof.
    intros Hc Hk Hr. destruct (infer_accepted aty e f Hc Hk Hr) as [t Ht]. exists t. split; [done|].
    by eapply C75_inferred_columns_are_those_of_the_result.
  Qed.

  (** Any sequence of simplifications, anywhere in an accepted program, keeps the result. *)
  Definition good_step (e e' : fexp A) : Prop := step aty e e' /\ complete aty e /\ plain e /\ ∃ t, infer aty e = Ok t.
  Theorem C75_simplifications_keep_the_result e e' f : rtc good_step e e' → run e = Ok f → run e' = Ok f.
  Proof.
    induction 1 as [e|e1 e2 e3 (Hs & Hc & Hp & t & Ht) _ IH]; [done|]. intros Hr. apply IH. by eapply step_sound.
  Qed.

  (** If the two branches of an if return frames with different numbers of columns, no type is claimed behind it. *)
  Theorem C75_different_numbers_of_columns_give_no_types c same t e t1 t2 :
    infer aty t = Ok t1 → infer aty e = Ok t2 → length (f_cts t1) ≠ length (f_cts t2) →
    ∃ r, infer aty (EIf c same t e) = Ok r /\ Forall (fun c => c = None) (f_cts r).
  Proof.
    intros H1 H2 Hl. eexists. split; [cbn [infer]; rewrite H1; cbn [obind]; rewrite H2; cbn [obind]; reflexivity|].
    unfold common. rewrite decide_False by done. cbn. by repeat constructor.
  Qed.

  (** ** Where it fails *)
  (** An inner join (or Cartesian product, below) of a frame with unknown labels and a frame with columns x and y: the column y is taken to
      have the type of the column x. *)
  Theorem C75_inner_join_with_unknown_labels_wrong_type_refuted cs ls x y i sx sy id j :
    sx ≠ sy → wildcard sy = false → aty x ≠ aty y → join_keeps aty j →
    let e := EUn (UExtract (SArg id sy true)) (EBin (BInner j) (ERead false cs ls) (ERead true [x; y] [sx; sy])) in
    infer aty e = Ok (FT [Some (aty x)] (Some [sy])) /\
    ∀ f, run e = Ok f → i ∈ f.*2 → aty i = aty y /\ ¬ right aty (FT [Some (aty x)] (Some [sy])) f.
  Proof.
    intros Hne Hw Hty Hj e. split.
    - cbn. unfold infer_extract. cbn. rewrite Hw. cbn. unfold type_by_label. cbn. rewrite decide_False by done. rewrite decide_True by done. done.
    - intros f Hr Hin. cbn [run e] in Hr. inv_ok Hr. inv_ok E. inv_ok E. cbn [run_bin] in E. unfold run_join in E.
      destruct (j_ok j x1 x2); [|done]. cbn [or_default length] in E1.
      apply make_frame_Ok in E1 as (H1 & H2 & HN1); [|done].
      apply make_frame_Ok in E as (H3 & H4 & HN); [|by rewrite !app_length, !fmap_length].
      cbn [run_un s_val] in Hr. apply run_extract_plain in Hr as (p & Hf & ->); [|done].
      assert (Hx0 : x0 = zip (x1.*1) (j_l j x1 x2 <$> x1.*2) ++ [(sx, j_r j x1 x2 x); (sy, j_r j x1 x2 y)]).
      { apply frame_eq; rewrite fmap_app.
        - rewrite H3, H1. rewrite fst_zip by (rewrite !fmap_length; done). done.
        - rewrite H4, H2. rewrite snd_zip by (rewrite !fmap_length; done). done. }
      assert (Hp : p = (sy, j_r j x1 x2 y)).
      { rewrite Hx0, find_col_app in Hf. cbn in Hf. rewrite decide_True in Hf by done. congruence. }
      subst p. cbn in Hin. apply elem_of_list_singleton in Hin as ->. destruct (Hj x1 x2) as [_ Hk]. split; [by apply Hk|].
      intros [Ht _]. unfold right_types in Ht. cbn in Ht. apply Forall2_cons_1 in Ht as [[?|Ht] _]; [done|].
      rewrite (Hk y) in Ht. congruence.
  Qed.
  (** The other way round, the labels of the join are too few and are read out of bounds. *)
  Theorem C75_join_labels_read_out_of_bounds_refuted cs ls x sx l id b j :
    l ≠ sx → wildcard l = false → b = BInner j \/ b = BCartesian j →
    infer aty (EUn (UExtract (SArg id l true)) (EBin b (ERead true [x] [sx]) (ERead false cs ls))) = UB.
  Proof.
    intros Hne Hw [-> | ->]; cbn; unfold infer_extract; cbn; rewrite Hw; cbn; unfold type_by_label; cbn; by rewrite decide_False by done.
  Qed.
  (** Binding columns is rejected at compile-time when one of the frames is a slice of the columns of a frame. *)
  Theorem C75_colbind_of_a_slice_is_rejected_refuted lo hi const e r t :
    infer aty (EBin BColBind (EUn (USlice lo hi const) e) r) ≠ Ok t /\ infer aty (EBin BColBind r (EUn (USlice lo hi const) e)) ≠ Ok t.
  Proof.
    split; intros H; cbn in H.
    - inv_ok H. inv_ok E. destruct const; [inv_ok E|]; injection E as <-; inv_ok H; cbn in H; done.
    - inv_ok H. inv_ok H. inv_ok E0. destruct const; [inv_ok E0|]; injection E0 as <-; cbn in H; by destruct (f_lbls x).
  Qed.
  (** Setting a label that is not a constant and a constant label behind it dereferences a null pointer. *)
  Theorem C75_set_labels_null_dereference_refuted e t ls1 s1 s2 ls2 :
    infer aty e = Ok t → Forall (fun s => s_const s = true) ls1 → s_const s1 = false → s_const s2 = true →
    infer aty (EUn (USet (ls1 ++ s1 :: s2 :: ls2)) e) = UB.
  Proof.
    intros He H1 Hs1 Hs2. cbn [infer]. rewrite He. cbn [obind infer_un].
    assert (Hl : ∀ acc, set_labels_loop (Some acc) (ls1 ++ s1 :: s2 :: ls2) = UB).
    { induction H1 as [|s ls Hs _ IH]; intros acc; cbn [app set_labels_loop]; [by rewrite Hs1, Hs2|]. rewrite Hs. apply IH. }
    by rewrite Hl.
  Qed.
  (** Extracting by a wildcard from a frame with unknown labels dereferences a null pointer. *)
  Theorem C75_wildcard_of_unknown_labels_refuted e t s :
    infer aty e = Ok t → f_lbls t = None → s_const s = true → wildcard (s_val s) = true → infer aty (EUn (UExtract s) e) = UB.
  Proof.
    intros He Hl Hs Hw. cbn [infer]. rewrite He. cbn. unfold infer_extract, const_or_throw. rewrite Hs. cbn. by rewrite Hw, Hl.
  Qed.
  (** The count of a group is inferred to be si64, but is ui64. *)
  Theorem C75_count_has_another_type_refuted e s gk ga t f :
    agg_keeps aty ga → infer aty (EUn (UGroup [] [(COUNT, s)] gk ga) e) = Ok t → run (EUn (UGroup [] [(COUNT, s)] gk ga) e) = Ok f →
    ¬ right aty t f.
  Proof.
    intros Hg Hi Hr [Ht _]. cbn [infer] in Hi. inv_ok Hi. cbn in Hi. inv_ok Hi. injection Hi as <-. cbn [run] in Hr. inv_ok Hr.
    cbn [run_un] in Hr. unfold run_group in Hr. cbn in Hr. inv_ok Hr. inv_ok E2. injection E2 as <-. cbn in Hr.
    apply make_frame_Ok in Hr as (H1 & H2 & _); [|done]. unfold right_types in Ht. cbn in Ht. rewrite H2 in Ht.
    apply Forall2_cons_1 in Ht as [[?|Ht] _]; [done|]. rewrite Hg in Ht. done.
  Qed.
  (** Grouping by "*" with an aggregate: more columns are inferred than there are. *)
  Theorem C75_group_by_star_too_many_columns_refuted e id fn s gk ga t f :
    complete aty e → infer aty (EUn (UGroup [SArg id "*" true] [(fn, s)] gk ga) e) = Ok t →
    run (EUn (UGroup [SArg id "*" true] [(fn, s)] gk ga) e) = Ok f → length f < length (f_cts t) /\ ¬ right aty t f.
  Proof.
    intros Hc Hi Hr. assert (length f < length (f_cts t)) as Hlen.
    { cbn [infer] in Hi. inv_ok Hi. cbn [infer_un] in Hi. unfold infer_group in Hi. inv_ok Hi. inv_ok Hi. inv_ok Hi. inv_ok Hi.
      injection Hi as <-. cbn [omap_out] in E0. inv_ok E0. cbn [obind] in E0. injection E0 as <-.
      unfold key_types, const_or_throw in E4. cbn [s_const s_val obind] in E4. rewrite decide_True in E4 by done. injection E4 as <-.
      apply omap_out_length in E1. clear E2 E3.
      cbn [run] in Hr. apply obind_Ok in Hr as (fr & Efr & Hr). pose proof (infer_sound aty e x fr Hc E Efr) as Hinv.
      cbn [run_un] in Hr. unfold run_group in Hr. apply obind_Ok in Hr as (kcols & Ek & Hr). apply obind_Ok in Hr as (acols & Ea & Hr).
      cbn [omap_out fmap list_fmap fst snd] in Ea. apply obind_Ok in Ea as (p & Ep & Ea). cbn [obind] in Ea. injection Ea as <-.
      assert (Hst : ∀ aggs, (s_val <$> [SArg id "*" true]) ≫= star_of_key fr aggs = filter (fun l => l ∉ aggs) (fr.*1)).
      { intros aggs. cbn [fmap list_fmap mbind list_bind s_val]. rewrite app_nil_r. unfold star_of_key. by rewrite decide_True by done. }
      rewrite Hst in Ek. clear Hst. cbn [fmap list_fmap fst snd] in Ek.
      set (star := filter _ _) in Ek. assert (length star < length fr) as Hstar.
      { apply get_col_Ok in Ep. apply find_col_Some in Ep as [Hp Hl]. unfold star. clear -Hp Hl. rewrite <- Hl. clear Hl.
        induction Hp as [p f|p q f Hp IH]; rewrite fmap_cons, filter_cons.
        - rewrite decide_False by (intros Hn; apply Hn; constructor). cbn. pose proof (filter_length (fun l => l ∉ [p.1]) (f.*1)) as Hf.
          rewrite fmap_length in Hf. lia.
        - case_decide; cbn [length]; lia. }
      assert (length kcols = length star) as Hk.
      { destruct star as [|w star'] eqn:Es; [cbn in Ek; done|]. apply omap_out_length in Ek. by rewrite <- Ek. }
      apply make_frame_Ok in Hr as (H1 & _ & _).
      - apply (f_equal length) in H1. rewrite app_length, !fmap_length in H1. cbn [length fmap list_fmap] in H1, E1.
        cbn [f_cts concat]. rewrite !app_length, (inv_length aty x fr Hinv), <- E1. cbn [length]. lia.
      - rewrite !app_length, !fmap_length. done. }
    split; [done|]. intros [Ht _]. apply Forall2_length in Ht. rewrite fmap_length in Ht. lia.
  Qed.
  (** Columns cut out with bounds that are not constants, given two labels: extracting the second one is rejected at compile-time. *)
  Theorem C75_relabelled_slice_is_rejected_refuted e t lo hi a b id1 id2 id3 :
    infer aty e = Ok t → a ≠ b → wildcard b = false →
    infer aty (EUn (UExtract (SArg id3 b true)) (EUn (USet [SArg id1 a true; SArg id2 b true]) (EUn (USlice lo hi false) e))) = Throw.
  Proof.
    intros He Hne Hw. cbn. rewrite He. cbn. unfold infer_extract. cbn. rewrite Hw. cbn. unfold type_by_label. cbn.
    by rewrite decide_False by done.
  Qed.
  (** A created frame with a label that reads like a wildcard: the extraction by it returns all columns of that frame name; simplified, it
      returns one. *)
  Theorem C75_simplification_of_a_wildcard_label_refuted (c1 c2 : mat A) :
    let s := SArg 0 "f.*" true in
    let e := EUn (UExtract s) (ECreate [c1; c2] [s; SArg 1 "f.b" true]) in
    ∃ e', canon aty e e' /\ run e = Ok [("f.*"%string, m_data c1); ("f.b"%string, m_data c2)] /\ run e' = Ok [("f.*"%string, m_data c1)].
  Proof.
    intros s e. exists (EUn (USet [s]) (ECast c1)). split; [|split].
    - by apply (CanonCreate aty _ _ 0).
    - vm_compute. done.
    - vm_compute. done.
  Qed.
  (** The push-down of an extraction into one argument of colBind removes the error about labels that occur in both. *)
  Theorem C75_simplification_removes_an_error_refuted (x y : A) :
    let s := SArg 0 "a" true in
    let e := EUn (UExtract s) (EBin BColBind (ERead true [x] ["a"%string]) (ERead true [y] ["a"%string])) in
    ∃ e', canon aty e e' /\ run e = Throw /\ run e' = Ok [("a"%string, x)].
  Proof.
    intros s e. exists (EUn (UExtract s) (ERead true [x] ["a"%string])). split; [|split].
    - eapply CanonLeft; [done|done|done|]. constructor.
    - vm_compute. done.
    - vm_compute. done.
  Qed.
End theorems.

(** ** A program that meets the conditions: two files, one relabelled with a prefix, joined, grouped by the columns of the first. *)
Definition ex_j : jfun (vt * nat) := JF (fun _ _ => true) (fun _ _ a => a) (fun _ _ a => a).
Definition ex_ga (_ : list (string * (vt * nat))) (fn : aggfn) (a : vt * nat) : vt * nat := (agg_vt fn a.1, a.2).
Definition ex_prog : fexp (vt * nat) :=
  let p := EUn (UPrefix (SArg 0 "p" true)) (ERead true [(SI64, 1); (STR, 2)] ["id"; "name"]%string) in
  let q := EUn (UPrefix (SArg 1 "q" true)) (ERead true [(SI64, 3); (F64, 4)] ["id"; "val"]%string) in
  let joined := EBin (BInner ex_j) p q in
  let grouped := EUn (UGroup [SArg 2 "p.*" true] [(AVG, SArg 3 "q.val" true); (MAX, SArg 3 "q.val" true)] (fun _ a => a) ex_ga) joined in
  let s := SArg 4 "MAX(q.val)" true in
  EUn (UExtract s) (EUn (UExtract s) (EBin BColBind grouped (ECreate [Mat (Some UI64) (UI64, 5)] [SArg 5 "n" true]))).
Theorem C75_example :
  complete fst ex_prog /\ known fst ex_prog /\ plain ex_prog /\
  run ex_prog = Ok [("MAX(q.val)"%string, (F64, 4))] /\
  infer fst ex_prog = Ok (FT [Some F64] (Some ["MAX(q.val)"%string])) /\
  (∃ e', step fst ex_prog e' /\ e' ≠ ex_prog /\ run e' = run ex_prog) /\
  (∃ f, run (EBin (BInner ex_j) (ERead true [(SI64, 1)] ["a"%string]) (ERead true [(STR, 2); (F64, 3)] ["x"; "y"]%string)) = Ok f /\ length f = 3).
Proof.
  assert (Hlab : ∀ e : fexp (vt * nat), (match infer fst e with Ok t => match f_lbls t with Some _ => true | None => false end | _ => true end) = true →
                 labelled fst e).
  { intros e H t Ht. rewrite Ht in H. by destruct (f_lbls t). }
  assert (Hjk : join_keeps fst ex_j) by done.
  split; [|split; [|split; [|split; [|split; [|split]]]]].
  - cbn [complete ex_prog]. repeat split; try done; try (by right); try (by apply Hlab; vm_compute).
    + intros a Ha. apply elem_of_cons in Ha as [->|Ha]; [done|]. apply elem_of_list_singleton in Ha as ->. done.
    + right. intros k Hk. apply elem_of_list_singleton in Hk as ->. split; [by vm_compute|done].
    + constructor; [by right|constructor].
  - cbn [known ex_prog]. repeat split; try done; try (by apply Hlab; vm_compute).
    + by repeat constructor.
    + by repeat constructor.
    + intros _. by apply Hlab; vm_compute.
    + by repeat constructor.
  - cbn [plain ex_prog]. repeat split; try done.
  - vm_compute. done.
  - vm_compute. done.
  - eexists. split; [|split].
    + apply StepRoot. apply CanonTwice.
    + intros [=].
    + vm_compute. done.
  - eexists. split; [vm_compute; reflexivity|]. done.
Qed.

Print Assumptions C75_inferred_columns_are_those_of_the_result.
Print Assumptions C75_programs_with_known_labels_are_accepted.
Print Assumptions C75_simplifications_keep_the_result.
Print Assumptions C75_group_by_star_too_many_columns_refuted.
Print Assumptions C75_example.
