(** * Early returns: what the front end makes of them (C58) *)

From Coq Require Import Arith Lia.
From stdpp Require Import base numbers list list_numbers.
From Verif Require Import CppBase EarlyModel EarlySpec EarlyProofs EarlySound EarlyWf.

(** ** The source form gives the invariant *)

Definition outs (o : op) : list nat :=
  match o with Op rs _ _ _ | If rs _ _ _ => rs | _ => [] end.

Lemma scoped_cons dom o l : scoped dom (o :: l) = oscoped dom o && scoped (outs o ++ dom) l.
Proof. by destruct o. Qed.
Lemma oscoped_If dom rs c t e :
  oscoped dom (If rs c t e) = forallb (λ x, bool_decide (x ∈ dom)) [c] && scoped dom t && scoped dom e.
Proof. done. Qed.

Lemma outs_defs o x : x ∈ outs o → x ∈ odefs o.
Proof. destruct o; cbn [outs odefs]; try done. rewrite elem_of_app. auto. Qed.

Lemma all_in (dom xs : list nat) y :
  forallb (λ x, bool_decide (x ∈ dom)) xs = true → y ∈ xs → y ∈ dom.
Proof.
  intros H Hy. rewrite forallb_forall in H. apply elem_of_list_In in Hy.
  apply H in Hy. by apply bool_decide_eq_true in Hy.
Qed.

Lemma yops_scoped l : ∀ dom y, scoped dom l = true → y ∈ yops l → y ∈ dom ∨ y ∈ defs l.
Proof.
  induction l as [|o l IH]; intros dom y Hs Hy.
  { by apply elem_of_nil in Hy. }
  rewrite scoped_cons in Hs. apply andb_true_iff in Hs as [Ho Hs].
  unfold yops in Hy. cbn [map concat] in Hy. rewrite defs_cons, elem_of_app.
  apply elem_of_app in Hy as [Hy|Hy].
  - destruct o; cbn [yvals] in Hy; try (by apply elem_of_nil in Hy).
    left. by eapply all_in.
  - destruct (IH _ _ Hs Hy) as [H|H]; [|auto].
    apply elem_of_app in H as [H|H]; [|auto]. apply outs_defs in H. auto.
Qed.

Definition becomes (m : nat) (o : op) : Prop :=
  ∀ dom, oscoped dom o = true → NoDup (dom ++ odefs o) → oyl o → oarity m o = true → owf m o.

Lemma source_wf_all m l : Forall (becomes m) l → ∀ dom,
  scoped dom l = true → NoDup (dom ++ defs l) → yields_last l → arity m l = true → wf m l.
Proof.
  intros Hall. induction Hall as [|o l IHo _ IHl]; [done|].
    intros dom Hs Hn (Hyo & Hyl & Hy) Ha.
    rewrite scoped_cons in Hs. apply andb_true_iff in Hs as [Hso Hs].
    cbn [arity forallb] in Ha. apply andb_true_iff in Ha as [Hao Ha].
    rewrite defs_cons in Hn.
    assert (Hn1 : NoDup (dom ++ odefs o)).
    { rewrite !NoDup_app in Hn. rewrite NoDup_app. destruct Hn as (H1 & H2 & H3 & H4 & H5).
      split; [done|]. split; [|done]. intros x Hx Hx'. apply (H2 x Hx). rewrite !elem_of_app. auto. }
    assert (Hn2 : NoDup ((outs o ++ dom) ++ defs l)).
    { rewrite !NoDup_app in Hn. destruct Hn as (H1 & H2 & H3 & H4 & H5).
      rewrite !NoDup_app. split; [split; [|split]|split]; try done.
      - destruct o; cbn [outs odefs] in *; try constructor; try done. by apply NoDup_app in H3 as [? _].
      - intros x Hx Hx'. apply (H2 x Hx'). rewrite elem_of_app. left. by apply outs_defs.
      - intros x Hx Hx'. apply elem_of_app in Hx as [Hx|Hx].
        + apply outs_defs in Hx. by apply (H4 x).
        + apply (H2 x Hx). rewrite elem_of_app. auto. }
    apply wf_cons. split; [by apply (IHo dom)|]. split; [done|]. split; [|by eapply IHl].
    destruct o as [| rs c t e | |]; try done. intros _.
    rewrite oscoped_If, !andb_true_iff in Hso. destruct Hso as [[_ Hst] Hse].
    rewrite odefs_If in Hn. rewrite !NoDup_app in Hn. destruct Hn as (H1 & H2 & H3 & H4 & H5).
    split; intros _ y Hyy Hyd; eapply yops_scoped in Hyy; try done; destruct Hyy as [Hyy|Hyy].
    + apply (H2 y Hyy). rewrite !elem_of_app. auto.
    + apply (H4 y); [rewrite !elem_of_app; auto|done].
    + apply (H2 y Hyy). rewrite !elem_of_app. auto.
    + apply (H4 y); [rewrite !elem_of_app; auto|done].
Qed.

Lemma source_owf m : ∀ o, becomes m o.
Proof.
  refine (op_rect' (becomes m) _ _ _ _).
  - done.
  - intros rs c t e IHt IHe dom Hs Hn Hy Ha.
    rewrite oscoped_If, !andb_true_iff in Hs. destruct Hs as [[_ Hst] Hse].
    destruct Hy as [Hyt Hye].
    cbn [oarity] in Ha. rewrite !andb_true_iff in Ha.
    destruct Ha as [[[Ha1 Ha2] Ha3] [[Hb1 Hb2] Hb3]].
    rewrite odefs_If in Hn.
    assert (Hgb : ∀ b,
      forallb (λ o, match o with Yield xs => Nat.eqb (length xs) (length rs) | _ => true end) b = true →
      has_yield b || has_ret b || Nat.eqb (length rs) 0 = true → good_branch rs b).
    { intros b H1 H2. split.
      - rewrite Forall_forall. intros o Ho. rewrite forallb_forall in H1.
        apply elem_of_list_In in Ho. apply H1 in Ho.
        destruct o; cbn [yarity]; try done. by apply Nat.eqb_eq.
      - intros Hy Hr. rewrite Hy, Hr in H2. apply Nat.eqb_eq in H2. by destruct rs. }
    apply owf_If. split; [|split; [|split]].
    + apply (source_wf_all m t IHt dom); try done.
      rewrite !NoDup_app in Hn. rewrite NoDup_app. destruct Hn as (H1 & H2 & H3 & H4 & H5 & H6 & H7).
      split; [done|]. split; [|done]. intros x Hx Hx'. apply (H2 x Hx). rewrite !elem_of_app. auto.
    + apply (source_wf_all m e IHe dom); try done.
      rewrite !NoDup_app in Hn. rewrite NoDup_app. destruct Hn as (H1 & H2 & H3 & H4 & H5 & H6 & H7).
      split; [done|]. split; [|done]. intros x Hx Hx'. apply (H2 x Hx). rewrite !elem_of_app. auto.
    + by apply Hgb.
    + by apply Hgb.
  - done.
  - intros xs dom _ _ _ Ha. cbn [oarity] in Ha. by apply Nat.eqb_eq in Ha.
Qed.

Lemma source_wf m l dom :
  scoped dom l = true → NoDup (dom ++ defs l) → yields_last l → arity m l = true → wf m l.
Proof.
  apply source_wf_all. apply Forall_true. apply source_owf.
Qed.

(** ** The loop *)

Lemma bound_ge P l : P ≤ bound P l.
Proof. unfold bound. lia. Qed.
Lemma bound_lt P l y : y ∈ defs l ++ uses l → y < bound P l.
Proof.
  intros Hy. unfold bound. assert (y ≤ list_max (defs l ++ uses l)); [|lia].
  revert Hy. generalize (defs l ++ uses l). intros L. induction L as [|x L IH]; intros Hy.
  - by apply elem_of_nil in Hy.
  - cbn [list_max foldr]. apply elem_of_cons in Hy as [->|Hy]; [lia|]. apply IH in Hy.
    unfold list_max in Hy. lia.
Qed.

Definition inv (P m : nat) (f : list op) : Prop :=
  wf m f ∧ has_yield f = false ∧ NoDup (defs f) ∧ (∀ y, y ∈ defs f → P ≤ y).

Lemma source_inv P m f : source P f → arity m f = true → inv P m f.
Proof.
  intros (Hn & Hy & Hy0 & Hs) Ha. split; [by eapply source_wf|]. split; [done|].
  apply NoDup_app in Hn as (_ & Hd & Hn). split; [done|].
  intros y Hin. destruct (decide (P ≤ y)); [done|]. destruct (Hd y); [|done].
  apply elem_of_seq. lia.
Qed.

Lemma round_inv P m d f f1 :
  inv P m f → depth f = S (S d) → rect (bound P f) d [] f = Some (Ok f1) → inv P m f1.
Proof.
  intros (Hw & Hy & Hn & Hp) Hd Hr.
  destruct (rect_wf (bound P f) m d [] f f1) as (H1 & H2 & H3 & H4 & _); try done.
  - rewrite Hd. lia.
  - unfold kdefs. cbn. by rewrite app_nil_r.
  - unfold kuses. cbn. intros y. rewrite app_nil_r. intros Hin. apply bound_lt. rewrite elem_of_app. auto.
  - unfold kdefs. cbn. intros y. rewrite app_nil_r. intros Hin. apply bound_lt. rewrite elem_of_app. auto.
  - split; [done|]. split; [done|]. split; [done|]. intros y Hin.
    destruct (H3 y Hin) as [H|H]; [by apply Hp|]. pose proof (bound_ge P f). lia.
Qed.

Lemma trim_depth l : depth l ≤ 1 → has_ret l = true → ∃ p xs, trim l = p ++ [Ret xs] ∧ depth p = 0.
Proof.
  intros Hd Hr. destruct (trim_last l Hr) as (p & xs & E & Hp & q & El).
  exists p, xs. split; [done|]. apply depth_noret; [|done].
  rewrite El, depth_app in Hd. lia.
Qed.

Section sound.
  Context {V St : Type}.
  Context (sem : nat → list V → list V → St → (nat → V) * St).
  Context (truth : V → bool).
  Notation call := (call sem truth).
  Notation block := (block sem truth).

  Lemma round_sound P m d f f1 r s o :
    inv P m f → depth f = S (S d) → rect (bound P f) d [] f = Some (Ok f1) →
    (∀ y, P ≤ y → r y = None) → call f1 r s = Some o → call f r s = Some o.
  Proof.
    intros (Hw & Hy & Hn & Hp) Hd Hr HP Hc.
    pose proof (bound_ge P f) as Hb.
    apply (rect_sound sem truth (bound P f) m d [] f f1 r s o); try done.
    - unfold kdefs. cbn. by rewrite app_nil_r.
    - unfold kuses. cbn. intros y. rewrite app_nil_r. intros Hin. apply bound_lt. rewrite elem_of_app. auto.
    - unfold kdefs. cbn. intros y. rewrite app_nil_r. intros Hin. split.
      + apply bound_lt. rewrite elem_of_app. auto.
      + by apply HP, Hp.
    - intros y Hge. apply HP. lia.
  Qed.

  Lemma rectify_sound P m n : ∀ f f', inv P m f → rectify P n f = Some (Ok f') →
    ∀ r s o, (∀ y, P ≤ y → r y = None) → call f' r s = Some o → call f r s = Some o.
  Proof.
    induction n as [|n IH]; intros f f' Hi Hr; [done|]. cbn [rectify] in Hr.
    destruct (depth f) as [|[|d]] eqn:Hd.
    - by injection Hr as <-.
    - injection Hr as <-. intros r s o _. unfold EarlySpec.call. by rewrite block_trim.
    - destruct (rect (bound P f) d [] f) as [[f1| |]|] eqn:E; try done.
      intros r s o HP Hc. eapply round_sound; try done.
      eapply IH; try done. by eapply round_inv.
  Qed.

  Lemma call_finish f r s : has_yield f = false → call (finish f) r s = call f r s.
  Proof.
    intros Hy. unfold finish, EarlySpec.call.
    assert (E : block (f ++ [Ret []]) r s
                = match block f r s with Done End r' s' => Done (RetE []) r' s' | a => a end).
    { rewrite block_app. destruct (block f r s) as [|[] r' s']; done. }
    destruct (last f) as [[]|]; try done; rewrite E;
      destruct (block f r s) as [|[] r' s']; done.
  Qed.
End sound.

Lemma rectify_shape P m n : ∀ f f', inv P m f → rectify P n f = Some (Ok f') →
  has_yield f' = false ∧ one_return (finish f').
Proof.
  induction n as [|n IH]; intros f f' Hi Hr; [done|]. cbn [rectify] in Hr.
  destruct (depth f) as [|[|d]] eqn:Hd.
  - injection Hr as <-. destruct Hi as (_ & Hy & _). split; [done|].
    unfold finish. destruct (last f) as [o|] eqn:El.
    + apply last_Some in El as [q Eq].
      destruct o; try (by exists f, []).
      * exfalso. rewrite Eq, has_yield_app in Hy. cbn in Hy. by rewrite orb_true_r in Hy.
      * exfalso. rewrite Eq, depth_app in Hd. cbn in Hd. lia.
    + by exists f, [].
  - injection Hr as <-.
    assert (Hret : has_ret f = true).
    { destruct (has_ret f) eqn:E; [done|]. apply depth_noret in E; lia. }
    destruct (trim_depth f) as (p & xs & Et & Hp); [lia|done|].
    destruct (trim_last f Hret) as (p' & xs' & Et' & _ & q & Ef).
    destruct Hi as (_ & Hy & _). rewrite Et. split.
    + rewrite Et in Et'. apply app_inj_tail in Et' as [<- E]. injection E as <-.
      rewrite Ef, has_yield_app in Hy. apply orb_false_iff in Hy as [Hy _].
      rewrite has_yield_app. by rewrite Hy.
    + exists p, xs. split; [|done]. unfold finish. by rewrite last_snoc.
  - destruct (rect (bound P f) d [] f) as [[f1| |]|] eqn:E; try done.
    eapply IH; [|done]. by eapply round_inv.
Qed.

(** ** What the verifier accepts runs without an error *)

Section vblk.
  Context (rs0 : list nat).
  Fixpoint vblk (dom : list nat) (l : list op) : bool :=
    match l with
    | [] => bool_decide (rs0 = [])
    | Yield xs :: l' =>
        forallb (λ x, bool_decide (x ∈ dom)) xs
        && bool_decide (length xs = length rs0) && bool_decide (length l' = 0)
    | Ret _ :: _ => false
    | o :: l' =>
        overified dom o
        && vblk (match o with Op rs _ _ _ | If rs _ _ _ => rs ++ dom | _ => dom end) l'
    end.
End vblk.

Lemma overified_If dom rs c t e :
  overified dom (If rs c t e)
  = forallb (λ x, bool_decide (x ∈ dom)) [c] && vblk rs dom t && vblk rs dom e.
Proof. done. Qed.

Section runs.
  Context {V St : Type}.
  Context (sem : nat → list V → list V → St → (nat → V) * St).
  Context (truth : V → bool).
  Notation exec := (exec sem truth).
  Notation block := (block sem truth).

  Definition known (r : nat → option V) (dom : list nat) : Prop := ∀ x, x ∈ dom → is_Some (r x).

  Lemma known_mapM r dom xs :
    known r dom → forallb (λ x, bool_decide (x ∈ dom)) xs = true → ∃ ws, mapM r xs = Some ws.
  Proof.
    intros Hk H. induction xs as [|x xs IH]; [by eexists|].
    cbn [forallb] in H. apply andb_true_iff in H as [Hx H]. apply bool_decide_eq_true in Hx.
    destruct (Hk x Hx) as [w Hw]. destruct (IH H) as [ws Hws].
    exists (w :: ws). cbn [mapM]. by rewrite Hw, Hws.
  Qed.

  Lemma bind_known (xs : list nat) : ∀ (ws : list (option V)) r dom,
    length ws = length xs → Forall is_Some ws → known r dom →
    ∃ r', bind r xs ws = Some r' ∧ known r' (xs ++ dom).
  Proof.
    induction xs as [|x xs IH]; intros [|w ws] r dom Hl Hf Hk; try done.
    - by exists r.
    - apply Forall_cons in Hf as [Hw Hf]. cbn [bind].
      assert (Hk' : known (upd r x w) (x :: dom)).
      { intros y Hy. unfold upd. destruct (decide (y = x)) as [->|Hne]; [done|].
        apply elem_of_cons in Hy as [?|Hy]; [done|]. by apply Hk. }
      destruct (IH ws (upd r x w) (x :: dom)) as (r' & Hr & Hkr); [cbn in Hl; lia|done|done|].
      exists r'. split; [done|]. intros y Hy. apply Hkr.
      revert Hy. rewrite !elem_of_app, !elem_of_cons. tauto.
  Qed.

  Definition runs (o : op) : Prop := ∀ dom r s, overified dom o = true → known r dom →
    ∃ r' s', exec o r s = Done End r' s' ∧ known r' (outs o ++ dom).

  Lemma runs_blk rs0 l : Forall runs l → ∀ dom r s, vblk rs0 dom l = true → known r dom →
    ∃ ws r' s', (block l r s = Done (YieldE ws) r' s' ∨ (block l r s = Done End r' s' ∧ ws = []))
      ∧ length ws = length rs0 ∧ Forall is_Some ws ∧ known r' dom.
  Proof.
    induction 1 as [|o l Ho _ IH]; intros dom r s Hv Hk.
    - apply bool_decide_eq_true in Hv as ->. exists [], r, s. auto.
    - assert (Hstep : overified dom o && vblk rs0 (outs o ++ dom) l = true →
        ∃ ws r' s', (block (o :: l) r s = Done (YieldE ws) r' s' ∨ (block (o :: l) r s = Done End r' s' ∧ ws = []))
          ∧ length ws = length rs0 ∧ Forall is_Some ws ∧ known r' dom).
      { rewrite andb_true_iff. intros [H1 H2].
        destruct (Ho dom r s H1 Hk) as (r1 & s1 & E1 & Hk1).
        destruct (IH _ r1 s1 H2 Hk1) as (ws & r' & s' & E & Hl & Hf & Hk').
        exists ws, r', s'. cbn [EarlySpec.block]. rewrite E1. split; [done|]. split; [done|]. split; [done|].
        intros y Hy. apply Hk'. rewrite elem_of_app. auto. }
      destruct o as [rs f xs ns|rs c t e|xs|xs]; cbn [vblk] in Hv; try (by apply Hstep).
      rewrite !andb_true_iff in Hv. destruct Hv as [[Hx Hl] _]. apply bool_decide_eq_true in Hl.
      exists (map r xs), r, s. split; [by left|]. split; [by rewrite map_length|]. split; [|done].
      rewrite Forall_forall. intros w Hw. apply elem_of_list_fmap in Hw as (x & -> & Hin).
      apply Hk. by eapply all_in.
  Qed.

  Lemma runs_op : ∀ o, runs o.
  Proof.
    refine (op_rect' runs _ _ _ _).
    - intros rs f xs ns dom r s Hv Hk. cbn [overified] in Hv. apply andb_true_iff in Hv as [H1 H2].
      destruct (known_mapM r dom xs Hk H1) as [vs Hvs]. destruct (known_mapM r dom ns Hk H2) as [us Hus].
      cbn [EarlySpec.exec outs]. rewrite Hvs, Hus. destruct (sem f vs us s) as [w s'].
      unfold binds.
      destruct (bind_known rs (map (λ i, Some (w i)) (seq 0 (length rs))) r dom) as (r' & E & Hk').
      + by rewrite map_length, seq_length.
      + rewrite Forall_forall. intros z Hz. apply elem_of_list_fmap in Hz as (i & -> & _). by eexists.
      + done.
      + rewrite E. eauto.
    - intros rs c t e IHt IHe dom r s Hv Hk. rewrite overified_If, !andb_true_iff in Hv.
      destruct Hv as [[Hc Ht] He].
      assert (Hc' : is_Some (r c)). { apply Hk. eapply all_in; [done|]. by apply elem_of_list_singleton. }
      destruct Hc' as [v Hv]. rewrite exec_If, Hv. cbn [outs].
      assert (Hb : ∀ b, Forall runs b → vblk rs dom b = true →
         ∃ r' s', branch_end rs (block b r s) = Done End r' s' ∧ known r' (rs ++ dom)).
      { intros b Hr Hb. destruct (runs_blk rs b Hr dom r s Hb Hk) as (ws & r1 & s1 & E & Hl & Hf & Hk1).
        destruct (bind_known rs ws r1 dom Hl Hf Hk1) as (r' & Eb & Hk').
        exists r', s1. split; [|done].
        destruct E as [E|[E ->]]; rewrite E; cbn [branch_end]; unfold binds; by rewrite Eb. }
      destruct (truth v); by apply Hb.
    - done.
    - done.
  Qed.

  Lemma verified_runs l : ∀ dom r s, verified dom l = true → known r dom →
    ∃ o, call sem truth l r s = Some o.
  Proof.
    unfold call. induction l as [|o l IH]; intros dom r s Hv Hk; [done|].
    assert (Hstep : overified dom o && verified (outs o ++ dom) l = true →
      ∃ a, match block (o :: l) r s with
           | Done (RetE ws) _ s' => Some (ws, s')
           | Done End _ s' => Some ([], s')
           | _ => None end = Some a).
    { rewrite andb_true_iff. intros [H1 H2].
      destruct (runs_op o dom r s H1 Hk) as (r1 & s1 & E1 & Hk1).
      cbn [EarlySpec.block]. rewrite E1. by apply (IH (outs o ++ dom)). }
    destruct o as [rs f xs ns|rs c t e|xs|xs].
    - by apply Hstep.
    - by apply Hstep.
    - cbn [verified overified] in Hv. done.
    - destruct l as [|o' l]; [|done]. cbn [verified] in Hv.
      destruct (known_mapM r dom xs Hk Hv) as [ws Hws].
      cbn [EarlySpec.block EarlySpec.exec]. rewrite Hws. eauto.
  Qed.
  (** So does what the front end hands over. *)
  Definition sruns (m : nat) (o : op) : Prop := ∀ dom r s,
    oscoped dom o = true → oarity m o = true → known r dom →
    ∃ x r' s', exec o r s = Done x r' s' ∧
      match x with
      | End => known r' (outs o ++ dom) ∧ is_yield o = false ∧ is_ret o = false
      | YieldE ws => ∃ xs, o = Yield xs ∧ length ws = length xs ∧ Forall is_Some ws ∧ known r' dom
      | RetE ws => True
      end.

  Lemma sruns_blk m k l : Forall (sruns m) l → ∀ dom r s,
    scoped dom l = true → arity m l = true → Forall (yarity k) l → known r dom →
    ∃ x r' s', block l r s = Done x r' s' ∧
      match x with
      | End => known r' dom ∧ has_yield l = false ∧ has_ret l = false
      | YieldE ws => length ws = k ∧ Forall is_Some ws ∧ known r' dom ∧ has_yield l = true
      | RetE ws => True
      end.
  Proof.
    induction 1 as [|o l Ho _ IH]; intros dom r s Hs Ha Hy Hk.
    - exists End, r, s. done.
    - rewrite scoped_cons in Hs. apply andb_true_iff in Hs as [Hso Hs].
      cbn [arity forallb] in Ha. apply andb_true_iff in Ha as [Hao Ha].
      apply Forall_cons in Hy as [Hyo Hy].
      destruct (Ho dom r s Hso Hao Hk) as (x & r1 & s1 & E & Hx). cbn [EarlySpec.block]. rewrite E.
      destruct x as [|ws|ws].
      + destruct Hx as (Hk1 & Hn1 & Hn2).
        destruct (IH _ r1 s1 Hs Ha Hy Hk1) as (x & r2 & s2 & E2 & Hx2). exists x, r2, s2.
        split; [done|]. unfold has_yield, has_ret in *. cbn [existsb]. rewrite Hn1, Hn2. cbn [orb].
        destruct x as [|ws|ws]; [| |done].
        * destruct Hx2 as (Hk2 & ? & ?). split; [|done]. intros y Hin. apply Hk2. rewrite elem_of_app. auto.
        * destruct Hx2 as (? & ? & Hk2 & ?). split; [done|]. split; [done|]. split; [|done].
          intros y Hin. apply Hk2. rewrite elem_of_app. auto.
      + destruct Hx as (xs & -> & Hl & Hf & Hk1). exists (YieldE ws), r1, s1.
        split; [done|]. cbn [yarity] in Hyo. by rewrite Hl, Hyo.
      + by exists (RetE ws), r1, s1.
  Qed.

  Lemma sruns_op m : ∀ o, sruns m o.
  Proof.
    refine (op_rect' (sruns m) _ _ _ _).
    - intros rs f xs ns dom r s Hv _ Hk. cbn [oscoped] in Hv. apply andb_true_iff in Hv as [H1 H2].
      destruct (known_mapM r dom xs Hk H1) as [vs Hvs]. destruct (known_mapM r dom ns Hk H2) as [us Hus].
      cbn [EarlySpec.exec outs]. rewrite Hvs, Hus. destruct (sem f vs us s) as [w s'].
      unfold binds.
      destruct (bind_known rs (map (λ i, Some (w i)) (seq 0 (length rs))) r dom) as (r' & E & Hk').
      + by rewrite map_length, seq_length.
      + rewrite Forall_forall. intros z Hz. apply elem_of_list_fmap in Hz as (i & -> & _). by eexists.
      + done.
      + rewrite E. by exists End, r', s'.
    - intros rs c t e IHt IHe dom r s Hv Ha Hk. rewrite oscoped_If, !andb_true_iff in Hv.
      destruct Hv as [[Hc Ht] He].
      assert (Hc' : is_Some (r c)). { apply Hk. eapply all_in; [done|]. by apply elem_of_list_singleton. }
      destruct Hc' as [v Hv]. rewrite exec_If, Hv. cbn [outs].
      cbn [oarity] in Ha. rewrite !andb_true_iff in Ha.
      destruct Ha as [[[Ha1 Ha2] Ha3] [[Hb1 Hb2] Hb3]].
      assert (Hb : ∀ b, Forall (sruns m) b → scoped dom b = true → forallb (oarity m) b = true →
         forallb (λ o, match o with Yield xs => Nat.eqb (length xs) (length rs) | _ => true end) b = true →
         has_yield b || has_ret b || Nat.eqb (length rs) 0 = true →
         ∃ x r' s', branch_end rs (block b r s) = Done x r' s' ∧
           match x with
           | End => known r' (rs ++ dom) ∧ is_yield (If rs c t e) = false ∧ is_ret (If rs c t e) = false
           | YieldE ws => ∃ xs, If rs c t e = Yield xs ∧ length ws = length xs ∧ Forall is_Some ws ∧ known r' dom
           | RetE ws => True
           end).
      { intros b Hall Hs1 Ha' Hya Hg.
        assert (Hy : Forall (yarity (length rs)) b).
        { rewrite Forall_forall. intros o Ho. rewrite forallb_forall in Hya.
          apply elem_of_list_In in Ho. apply Hya in Ho.
          destruct o; cbn [yarity]; try done. by apply Nat.eqb_eq. }
        destruct (sruns_blk m (length rs) b Hall dom r s Hs1 Ha' Hy Hk) as (x & r1 & s1 & E & Hx).
        rewrite E. destruct x as [|ws|ws]; cbn [branch_end].
        - destruct Hx as (Hk1 & Hy1 & Hr1). rewrite Hy1, Hr1 in Hg. apply Nat.eqb_eq in Hg.
          destruct rs; [|done]. unfold binds. cbn [bind]. by exists End, r1, s1.
        - destruct Hx as (Hl & Hf & Hk1 & _).
          destruct (bind_known rs ws r1 dom Hl Hf Hk1) as (r' & Eb & Hk').
          unfold binds. rewrite Eb. by exists End, r', s1.
        - by exists (RetE ws), r1, s1. }
      destruct (truth v); by apply Hb.
    - intros xs dom r s Hv _ Hk. cbn [EarlySpec.exec]. exists (YieldE (map r xs)), r, s.
      split; [done|]. exists xs. split; [done|]. split; [by rewrite map_length|]. split; [|done].
      rewrite Forall_forall. intros w Hw. apply elem_of_list_fmap in Hw as (x & -> & Hin).
      apply Hk. by eapply all_in.
    - intros xs dom r s Hv _ Hk. cbn [EarlySpec.exec].
      destruct (known_mapM r dom xs Hk Hv) as [ws ->]. by exists (RetE ws), r, s.
  Qed.

  Lemma source_runs P m f r s : source P f → arity m f = true → (∀ x, x < P → is_Some (r x)) →
    ∃ o, call sem truth f r s = Some o.
  Proof.
    intros (_ & _ & Hy & Hs) Ha H0.
    destruct (sruns_blk m 0 f (Forall_true _ _ (sruns_op m)) (seq 0 P) r s Hs Ha) as (x & r' & s' & E & Hx).
    - rewrite Forall_forall. intros o Ho. destruct o as [| | xs |]; try done. exfalso.
      unfold has_yield in Hy. assert (existsb is_yield f = true); [|congruence].
      apply existsb_exists. exists (Yield xs). split; [by apply elem_of_list_In|done].
    - intros y Hin. apply elem_of_seq in Hin. apply H0. lia.
    - unfold call. rewrite E. destruct x as [|ws|ws]; eauto.
      destruct Hx as (_ & _ & _ & Hx). congruence.
  Qed.
End runs.

(** ** The loop never follows a null pointer *)

Definition yields (l : list op) : nat := length (List.filter is_yield l).

Lemma yields_app l1 l2 : yields (l1 ++ l2) = yields l1 + yields l2.
Proof. unfold yields. by rewrite List.filter_app, app_length. Qed.
Lemma yields_upto l : yields (upto l) = if has_yield l then 1 else 0.
Proof.
  induction l as [|o l IH]; [done|]. unfold yields in *.
  destruct o; cbn [upto List.filter is_yield has_yield existsb length] in *; done.
Qed.
Lemma yields_clone K l : yields (map (clone K) l) = yields l.
Proof.
  induction l as [|o l IH]; [done|]. unfold yields in *. cbn [map List.filter].
  rewrite clone_yield. destruct (is_yield o); cbn [length]; by rewrite IH.
Qed.
Lemma yields_none l : has_yield l = false → yields l = 0.
Proof.
  induction l as [|o l IH]; [done|]. unfold yields in *. cbn [has_yield existsb List.filter].
  intros [-> H]%orb_false_iff. by apply IH.
Qed.

Lemma elim_ok l : ∀ rss g, yields l ≤ length rss → ∃ l', elim rss g l = Ok l'.
Proof.
  induction l as [|o l IH]; intros rss g Hy; [by eexists|].
  destruct o; cbn [elim]; unfold yields in Hy; cbn [List.filter is_yield] in Hy.
  - destruct (IH rss g Hy) as [l' ->]. by eexists.
  - destruct (IH rss g Hy) as [l' ->]. by eexists.
  - cbn [length] in Hy. destruct rss as [|rs rss]; [cbn in Hy; lia|]. apply IH. cbn [length] in Hy.
    unfold yields. lia.
  - destruct (IH rss g Hy) as [l' ->]. by eexists.
Qed.

Lemma gather_up_yields K (ks : ctx) :
  (∃ g, gather_up K ks = Ok g ∧ yields g < length ks) ∨ gather_up K ks = Throw.
Proof.
  induction ks as [|[rs post] ks IH]; [by right|]. cbn [gather_up].
  destruct (has_yield post) eqn:Hy.
  - destruct IH as [(g & -> & Hg)| ->]; [|by right]. left. cbn [obind]. eexists. split; [done|].
    rewrite yields_app, yields_clone, yields_upto, Hy. cbn [length]. lia.
  - left. cbn [obind]. eexists. split; [done|].
    rewrite yields_app, yields_clone, yields_upto, Hy. cbn [length yields]. unfold yields. cbn. lia.
Qed.

Lemma new_case_def K m rs b post (ks : ctx) : wf m b → new_case K rs b post ks ≠ UB.
Proof.
  intros Hw. unfold new_case. destruct (has_ret b).
  { cbn [obind]. by destruct (last (trim b)) as [[]|]. }
  unfold gather. destruct (has_yield post) eqn:Hy.
  - destruct (gather_up_yields K ks) as [(g & -> & Hg)| ->]; [|done]. cbn [obind].
    destruct (ensure_yield_shape m b Hw) as (p & xs & -> & Hp & _).
    destruct (elim_ok ((p ++ [Yield xs]) ++ upto post ++ g) (rs :: map fst ks) (λ x, x)) as [l' ->].
    { rewrite !yields_app, yields_upto, Hy, (yields_none p Hp). cbn [length]. rewrite map_length.
      unfold yields at 1. cbn. lia. }
    cbn [obind]. by destruct (last l') as [[]|].
  - cbn [obind]. destruct (ensure_yield_shape m b Hw) as (p & xs & -> & Hp & _).
    destruct (elim_ok ((p ++ [Yield xs]) ++ upto post ++ []) (rs :: map fst ks) (λ x, x)) as [l' ->].
    { rewrite !yields_app, yields_upto, Hy, (yields_none p Hp). cbn [length]. rewrite map_length.
      unfold yields. cbn. lia. }
    cbn [obind]. by destruct (last l') as [[]|].
Qed.

Lemma rect_def K m d : ∀ (ks : ctx) l, wf m l → rect K d ks l ≠ Some UB.
Proof.
  assert (Hclose : ∀ rs c t e post (ks : ctx), wf m t → wf m e → close K rs c t e post ks ≠ UB).
  { intros rs c t e post ks Ht He. unfold close.
    pose proof (new_case_def K m rs t post ks Ht). pose proof (new_case_def K m rs e post ks He).
    destruct (new_case K rs t post ks); try done. cbn [obind].
    by destruct (new_case K rs e post ks). }
  induction d as [|d IHd]; intros ks l; induction l as [|o post IHl]; intros Hw;
    try (by rewrite rect_nil); rewrite rect_cons;
    destruct (proj1 (wf_cons _ _ _) Hw) as (How & _ & _ & Hwp); specialize (IHl Hwp).
  - assert (Hskip : match rect K 0 ks post with
                    | Some r => Some (let* l' := r in Ok (o :: l'))
                    | None => None end ≠ Some UB).
    { by destruct (rect K 0 ks post) as [[]|]. }
    destruct o as [rs f xs ns|rs c t e|xs|xs]; try done.
    destruct (has_ret t || has_ret e); [|done].
    destruct (proj1 (owf_If _ _ _ _ _) How) as (Hwt & Hwe & _).
    intros E. injection E as E. by apply Hclose in E.
  - assert (Hskip : match rect K (S d) ks post with
                    | Some r => Some (let* l' := r in Ok (o :: l'))
                    | None => None end ≠ Some UB).
    { by destruct (rect K (S d) ks post) as [[]|]. }
    destruct o as [rs f xs ns|rs c t e|xs|xs]; try done.
    destruct (proj1 (owf_If _ _ _ _ _) How) as (Hwt & Hwe & _).
    pose proof (IHd ((rs, post) :: ks) t Hwt). pose proof (IHd ((rs, post) :: ks) e Hwe).
    destruct (rect K d ((rs, post) :: ks) t) as [[]|]; try done.
    by destruct (rect K d ((rs, post) :: ks) e) as [[]|].
Qed.

Lemma has_ret_two l : depth l = 1 → has_ret l = true.
Proof. intros H. destruct (has_ret l) eqn:E; [done|]. apply depth_noret in E; lia. Qed.

Lemma rect_some K d : ∀ (ks : ctx) l, depth l = S (S d) → rect K d ks l ≠ None.
Proof.
  induction d as [|d IHd]; intros ks l; induction l as [|o post IHl]; intros Hd; try done;
    rewrite rect_cons; rewrite depth_cons in Hd.
  - assert (Hskip : depth post = 2 → match rect K 0 ks post with
                    | Some r => Some (let* l' := r in Ok (o :: l'))
                    | None => None end ≠ None).
    { intros Hp. specialize (IHl Hp). by destruct (rect K 0 ks post). }
    destruct o as [rs f xs ns|rs c t e|xs|xs]; try (apply Hskip; cbn [odepth] in Hd; lia).
    destruct (has_ret t || has_ret e) eqn:E; [done|]. apply Hskip.
    apply orb_false_iff in E as [Et Ee]. rewrite odepth_If in Hd.
    destruct (Nat.max (depth t) (depth e)) as [|k] eqn:Em; [lia|].
    destruct (decide (depth post = 2)); [done|].
    assert (k = 0) as -> by lia.
    assert (depth t = 1 ∨ depth e = 1) as [H|H] by lia; apply has_ret_two in H; congruence.
  - assert (Hskip : depth post = S (S (S d)) → match rect K (S d) ks post with
                    | Some r => Some (let* l' := r in Ok (o :: l'))
                    | None => None end ≠ None).
    { intros Hp. specialize (IHl Hp). by destruct (rect K (S d) ks post). }
    destruct o as [rs f xs ns|rs c t e|xs|xs]; try (apply Hskip; cbn [odepth] in Hd; lia).
    destruct (rect K d ((rs, post) :: ks) t) eqn:Et; [done|].
    destruct (rect K d ((rs, post) :: ks) e) eqn:Ee; [done|].
    apply Hskip. rewrite odepth_If in Hd.
    destruct (decide (depth t = S (S d))) as [H|Ht]; [by apply (IHd ((rs, post) :: ks)) in H|].
    destruct (decide (depth e = S (S d))) as [H|He]; [by apply (IHd ((rs, post) :: ks)) in H|].
    destruct (Nat.max (depth t) (depth e)) as [|k] eqn:Em; lia.
Qed.

Lemma rectify_def P m n : ∀ f, inv P m f → rectify P n f ≠ Some UB.
Proof.
  induction n as [|n IH]; intros f Hi; [done|]. cbn [rectify].
  destruct (depth f) as [|[|d]] eqn:Hd; try done.
  pose proof (rect_some (bound P f) d [] f Hd) as H1.
  pose proof (rect_def (bound P f) m d [] f (proj1 Hi)) as H2.
  destruct (rect (bound P f) d [] f) as [[f1| |]|] eqn:E; try done.
  apply IH. by eapply round_inv.
Qed.

(** ** C58: early returns *)

(** Whenever the front end gets through: the function has a single return, at
    its end; the front end followed no null pointer on the way; and each run of
    the new function which uses no undefined value returns what the old function
    returns, with the same effects in the same order. *)
Theorem C58_early P m n f :
  source P f → arity m f = true →
  rectify P n f ≠ Some UB ∧
  ∀ f', rectify P n f = Some (Ok f') →
    one_return (finish f') ∧
    ∀ V St (sem : nat → list V → list V → St → (nat → V) * St) (truth : V → bool) r s o,
      (∀ y, P ≤ y → r y = None) →
      call sem truth (finish f') r s = Some o → call sem truth f r s = Some o.
Proof.
  intros Hs Ha. pose proof (source_inv _ _ _ Hs Ha) as Hi.
  split; [by eapply rectify_def|]. intros f' Hr.
  destruct (rectify_shape P m n f f' Hi Hr) as [Hy Ho]. split; [done|].
  intros V St sem truth r s o HP Hc. rewrite call_finish in Hc by done.
  by eapply rectify_sound.
Qed.

(** What the verifier accepts is the script's function: called with values for
    all parameters it returns, and it returns what the script says. *)
Theorem C58_verified P m n f f' :
  source P f → arity m f = true → rectify P n f = Some (Ok f') →
  verified (seq 0 P) (finish f') = true →
  ∀ V St (sem : nat → list V → list V → St → (nat → V) * St) (truth : V → bool) r s,
    (∀ x, x < P → is_Some (r x)) → (∀ y, P ≤ y → r y = None) →
    ∃ o, call sem truth (finish f') r s = Some o ∧ call sem truth f r s = Some o.
Proof.
  intros Hs Ha Hr Hv V St sem truth r s Hdef HP.
  destruct (verified_runs sem truth (finish f') (seq 0 P) r s Hv) as [o Ho].
  { intros x Hx. apply elem_of_seq in Hx. apply Hdef. lia. }
  exists o. split; [done|].
  destruct (C58_early P m n f Hs Ha) as [_ H]. destruct (H f' Hr) as [_ Hc]. by apply Hc.
Qed.

(** A function without a return goes through unchanged, apart from the return
    which is put at its end. *)
Theorem C58_no_return P n f : depth f = 0 → rectify P (S n) f = Some (Ok f).
Proof. intros H. cbn [rectify]. by rewrite H. Qed.

(** *** A case: three early returns, one after the other, with an else-branch
    that prints

<<
    def f(x) {
        a = g1(x);
        if (a) return g2(x);
        b = g3();
        if (b) return g3(); else g9();
        c = g8();
        if (c) return c;
        return c;
    }
>> *)
Definition sq : list op :=
  [Op [1] 1 [0] []; If [] 1 [Op [2] 2 [0] []; Ret [2]; Yield []] [];
   Op [3] 3 [] []; If [] 3 [Op [4] 3 [] []; Ret [4]; Yield []] [Op [] 9 [] []; Yield []];
   Op [7] 8 [] []; If [] 7 [Ret [7]; Yield []] []; Ret [7]].

Lemma nodup_dec (l : list nat) : bool_decide (NoDup l) = true → NoDup l.
Proof. apply bool_decide_eq_true. Qed.

Example sq_source : source 1 sq ∧ arity 1 sq = true.
Proof.
  split; [|done]. split; [apply nodup_dec; vm_compute; done|].
  split; [cbn; repeat split; done|]. split; done.
Qed.
Example sq_goes_through :
  ∃ f', rectify 1 20 sq = Some (Ok f') ∧ verified (seq 0 1) (finish f') = true ∧ depth sq = 2.
Proof. eexists. split; [vm_compute; reflexivity|]. split; vm_compute; reflexivity. Qed.

(** The two theorems together on the case. *)
Example sq_same : ∃ f', rectify 1 20 sq = Some (Ok f') ∧ one_return (finish f') ∧
  ∀ V St (sem : nat → list V → list V → St → (nat → V) * St) (truth : V → bool) x s,
    ∃ o, call sem truth (finish f') (λ y, if decide (y = 0) then Some x else None) s = Some o
       ∧ call sem truth sq (λ y, if decide (y = 0) then Some x else None) s = Some o.
Proof.
  destruct sq_goes_through as (f' & Hr & Hv & _). destruct sq_source as [Hs Ha].
  exists f'. split; [done|]. split.
  - by apply (proj2 (C58_early 1 1 20 sq Hs Ha) f').
  - intros V St sem truth x s. eapply C58_verified; try done.
    + intros y Hy. destruct (decide (y = 0)); [by eexists|lia].
    + intros y Hy. destruct (decide (y = 0)); [lia|done].
Qed.

(** *** What fails *)

(** The example in the comment of the function itself (DaphneDSLVisitor.cpp
    2168-2207): a return two ifs deep, with operations after the outer if.  What
    is cloned into the inner if still uses the values of the original: the
    verifier rejects the function, although the script is well-formed and runs
    without an error. *)
Definition doc : list op :=
  [Op [1] 1 [0] [];
   If [] 1 [Op [2] 2 [0] []; If [] 2 [Op [3] 3 [] []; Ret [3]; Yield []] [];
            Op [4] 4 [] []; Op [] 5 [4] []; Yield []]
           [Op [5] 6 [] []; Op [] 5 [5] []; Yield []];
   Op [6] 7 [] []; Op [] 5 [6] []; Op [7] 8 [] []; Ret [7]].

Theorem C58_nested_refuted : ∃ P m f f' n,
  source P f ∧ arity m f = true ∧ verified (seq 0 P) f = false ∧
  rectify P n f = Some (Ok f') ∧ verified (seq 0 P) (finish f') = false ∧
  (* the script's function runs, the new one uses an undefined value *)
  (∀ V St (sem : nat → list V → list V → St → (nat → V) * St) (truth : V → bool) r s,
     (∀ x, x < P → is_Some (r x)) → ∃ o, call sem truth f r s = Some o) ∧
  ∃ (sem : nat → list nat → list nat → nat → (nat → nat) * nat) (truth : nat → bool) r s,
     (∀ x, x < P → is_Some (r x)) ∧ (∀ y, P ≤ y → r y = None) ∧
     call sem truth (finish f') r s = None.
Proof.
  exists 1, 1, doc. eexists. exists 20.
  split. { split; [apply nodup_dec; vm_compute; done|]. split; [cbn; repeat split; done|]. split; done. }
  split; [done|]. split; [vm_compute; reflexivity|]. split; [vm_compute; reflexivity|].
  split; [vm_compute; reflexivity|]. split.
  - intros V St sem truth r s H0. eapply (source_runs sem truth 1 1); [|done|done].
    split; [apply nodup_dec; vm_compute; done|]. split; [cbn; repeat split; done|]. split; done.
  - exists (λ f vs us s, (λ _, match f with 1 => 1 | _ => 0 end, s)), (λ v, Nat.eqb v 1),
      (λ y, match y with 0 => Some 0 | _ => None end), 0.
    split; [intros x Hx; assert (x = 0) as -> by lia; by eexists|].
    split; [intros [|y] Hy; [lia|done]|]. vm_compute. reflexivity.
Qed.

(** One early return in an if which also sets a variable; the variable is used
    afterwards inside of a loop:

<<
    if (c) { return c; } else { y = g3(); }
    for (i in 1:2) { g5(y); }
    return c;
>>
    Only the uses directly in the block are replaced, so that the use inside of
    the loop is one of a value that no longer exists. *)
Definition loop_use : list op :=
  [If [1] 0 [Op [2] 2 [] []; Ret [0]; Yield [2]] [Op [3] 3 [] []; Yield [3]];
   Op [] 5 [] [1]; Ret [0]].

Theorem C58_inner_use_refuted : ∃ P m f f' n,
  source P f ∧ arity m f = true ∧ depth f = 2 ∧
  rectify P n f = Some (Ok f') ∧ verified (seq 0 P) (finish f') = false ∧
  (∀ V St (sem : nat → list V → list V → St → (nat → V) * St) (truth : V → bool) r s,
     (∀ x, x < P → is_Some (r x)) → ∃ o, call sem truth f r s = Some o) ∧
  ∃ (sem : nat → list nat → list nat → nat → (nat → nat) * nat) (truth : nat → bool) r s,
     (∀ x, x < P → is_Some (r x)) ∧ (∀ y, P ≤ y → r y = None) ∧
     call sem truth (finish f') r s = None.
Proof.
  assert (Hs : source 1 loop_use).
  { split; [apply nodup_dec; vm_compute; done|]. split; [cbn; repeat split; done|]. split; done. }
  exists 1, 1, loop_use. eexists. exists 20.
  split; [done|]. split; [done|]. split; [done|]. split; [vm_compute; reflexivity|].
  split; [vm_compute; reflexivity|]. split.
  - intros V St sem truth r s H0. by eapply (source_runs sem truth 1 1).
  - exists (λ f vs us s, (λ _, 0, s)), (λ v, Nat.eqb v 1),
      (λ y, match y with 0 => Some 0 | _ => None end), 0.
    split; [intros x Hx; assert (x = 0) as -> by lia; by eexists|].
    split; [intros [|y] Hy; [lia|done]|]. vm_compute. reflexivity.
Qed.

(** A function which returns nothing, with an early return and no return at its
    end: an error, although without the early return (or with a return at the
    end) it goes through.

<<
    if (c) { return; }
    g5(c);
>> *)
Definition void_early : list op := [If [] 0 [Ret []; Yield []] []; Op [] 5 [0] []].

Theorem C58_void_refuted : ∃ P f n,
  source P f ∧ arity 0 f = true ∧ rectify P n f = Some Throw ∧
  ∃ f', rectify P n (f ++ [Ret []]) = Some (Ok f') ∧ verified (seq 0 P) (finish f') = true.
Proof.
  exists 1, void_early, 20.
  split. { split; [apply nodup_dec; vm_compute; done|]. split; [cbn; repeat split; done|]. split; done. }
  split; [done|]. split; [vm_compute; reflexivity|].
  eexists. split; vm_compute; reflexivity.
Qed.

(** Returns with different numbers of values: nothing reports it, the function
    goes through, the verifier accepts it, and a value is lost.

<<
    if (c) { return c; }
    if (g1(c)) { return c; }
    return c, c;
>> *)
Definition mixed : list op :=
  [If [] 0 [Ret [0]; Yield []] []; Op [1] 1 [0] []; If [] 1 [Ret [0]; Yield []] []; Ret [0; 0]].

Theorem C58_arity_refuted : ∃ P f f' n,
  source P f ∧ (∀ m, arity m f = false) ∧ rectify P n f = Some (Ok f') ∧
  ∃ (sem : nat → list nat → list nat → nat → (nat → nat) * nat) (truth : nat → bool) r s,
     (∀ x, x < P → is_Some (r x)) ∧ (∀ y, P ≤ y → r y = None) ∧
     call sem truth f r s = Some ([0; 0], 0) ∧
     call sem truth (finish f') r s ≠ Some ([0; 0], 0) ∧
     verified (seq 0 P) (finish f') = true.
Proof.
  exists 1, mixed. eexists. exists 20.
  split. { split; [apply nodup_dec; vm_compute; done|]. split; [cbn; repeat split; done|]. split; done. }
  split. { intros [|[|[|m]]]; done. }
  split; [vm_compute; reflexivity|].
  exists (λ f vs us s, (λ _, 0, s)), (λ v, Nat.eqb v 1),
      (λ y, match y with 0 => Some 0 | _ => None end), 0.
  split; [intros x Hx; assert (x = 0) as -> by lia; by eexists|].
  split; [intros [|y] Hy; [lia|done]|].
  split; [vm_compute; reflexivity|]. split; vm_compute; done.
Qed.

Print Assumptions C58_early.
Print Assumptions C58_verified.
Print Assumptions C58_nested_refuted.
