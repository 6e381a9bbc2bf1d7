From stdpp Require Import base numbers sorting list list_numbers.
From Coq Require Import Lia.
From Verif Require Import CppBase Mem BitmapModel Bitmap ExtractModel Extract OrderModel OrderSpec.
Local Open Scope nat_scope.

Lemma ss_app_iff {A} (R : A -> A -> Prop) l k : StronglySorted R (l ++ k) <-> StronglySorted R l /\ StronglySorted R k /\ forall x y, x ∈ l -> y ∈ k -> R x y.
Proof.
  induction l as [|a l IH]; cbn [app].
  - split; [intros H; split; [constructor|]; split; [done|]; intros x y Hx; by apply elem_of_nil in Hx|tauto].
  - split.
    + intros H. apply StronglySorted_inv in H as [H Ha]. apply IH in H as (Hl & Hk & Hlk). rewrite Forall_app in Ha. destruct Ha as [Ha1 Ha2]. split; [by constructor|]. split; [done|].
      intros x y Hx Hy. apply elem_of_cons in Hx as [->|Hx]; [|by apply Hlk]. rewrite Forall_forall in Ha2. by apply Ha2.
    + intros (Hl & Hk & Hlk). apply StronglySorted_inv in Hl as [Hl Ha]. constructor.
      * apply IH. split; [done|]. split; [done|]. intros x y Hx Hy. apply Hlk; [by right|done].
      * apply Forall_app. split; [done|]. apply Forall_forall. intros y Hy. apply Hlk; [by left|done].
Qed.

Section Key.
  Context (k : skey) (Hw : weak_order (s_lt k)).
  Lemma less_irrefl i : ~ less_by k i i.
  Proof. destruct Hw as (H & _). unfold less_by. rewrite H. by destruct (s_asc k). Qed.
  Lemma less_trans i j l : less_by k i j -> less_by k j l -> less_by k i l.
  Proof. destruct Hw as (_ & H & _). unfold less_by. destruct (s_asc k); eauto. Qed.
  Lemma less_neg i j l : less_by k i l -> less_by k i j \/ less_by k j l.
  Proof. destruct Hw as (_ & _ & H). unfold less_by. destruct (s_asc k); [by eauto|]. intros E. destruct (H _ (s_val k j) _ E); tauto. Qed.
  Lemma same_iff i j : same_by k i j <-> ~ less_by k i j /\ ~ less_by k j i.
  Proof. unfold same_by, less_by. destruct (s_asc k), (s_lt k (s_val k i) (s_val k j)), (s_lt k (s_val k j) (s_val k i)); split; try done; intros [? ?]; try done; by split. Qed.
  Lemma same_refl i : same_by k i i.
  Proof. apply same_iff. split; apply less_irrefl. Qed.
  Lemma same_sym i j : same_by k i j -> same_by k j i.
  Proof. intros [? ?]; by split. Qed.
  Lemma same_trans i j l : same_by k i j -> same_by k j l -> same_by k i l.
  Proof. rewrite !same_iff. intros [H1 H2] [H3 H4]. split; intros H; apply (less_neg _ j) in H; tauto. Qed.
  Lemma same_less i j l : same_by k i j -> less_by k j l -> less_by k i l.
  Proof. rewrite same_iff. intros [H1 H2] H. apply (less_neg _ i) in H. tauto. Qed.
  Lemma less_same i j l : less_by k i j -> same_by k j l -> less_by k i l.
  Proof. rewrite same_iff. intros H [H1 H2]. apply (less_neg _ l) in H. tauto. Qed.
  Lemma trichotomy i j : less_by k i j \/ same_by k i j \/ less_by k j i.
  Proof. unfold same_by, less_by. destruct (s_asc k), (s_lt k (s_val k i) (s_val k j)), (s_lt k (s_val k j) (s_val k i)); auto. Qed.
  Definition R1 (i j : nat) : Prop := less_by k i j \/ (same_by k i j /\ i < j).
  Lemma R1_trans i j l : R1 i j -> R1 j l -> R1 i l.
  Proof.
    intros [H1|[H1 H1']] [H2|[H2 H2']].
    - left. by apply (less_trans _ j).
    - left. by apply (less_same _ j).
    - left. by apply (same_less _ j).
    - right. split; [by apply (same_trans _ j)|lia].
  Qed.
  Global Instance same_dec i j : Decision (same_by k i j).
  Proof using Type. unfold same_by. apply _. Defined.

  Lemma ins_spec cmp x l : (forall y, y ∈ l -> exists b, cmp y x = Ok b /\ (b = true <-> less_by k y x)) -> StronglySorted R1 l -> Forall (fun y => x < y) l ->
    exists r, ins cmp x l = Ok r /\ r ≡ₚ x :: l /\ StronglySorted R1 r.
  Proof.
    induction l as [|y l IH]; intros Hc Hs Hx; cbn [ins].
    - eexists. split; [done|]. split; [done|]. repeat constructor.
    - destruct (Hc y) as (b & -> & Hb); [by left|]. cbn [obind]. apply StronglySorted_inv in Hs as [Hs Hy]. apply Forall_cons in Hx as [Hxy Hx]. destruct b.
      + destruct IH as (r & -> & Hp & Hr); [intros z Hz; apply Hc; by right|done|done|]. cbn [obind]. eexists. split; [done|]. split; [rewrite Hp; apply Permutation_swap|].
        constructor; [done|]. rewrite Hp. constructor; [|done]. left. by apply Hb.
      + eexists. split; [done|]. split; [done|]. assert (Rxy : R1 x y).
        { destruct (trichotomy x y) as [?|[?|H]]; [by left|by right|]. apply Hb in H. done. }
        constructor; [by constructor|]. constructor; [done|]. eapply Forall_impl; [exact Hy|]. intros z Hz. by apply (R1_trans _ y).
  Qed.
  Lemma stable_sort_spec cmp l : (forall x y, x ∈ l -> y ∈ l -> exists b, cmp y x = Ok b /\ (b = true <-> less_by k y x)) -> StronglySorted lt l ->
    exists r, stable_sort cmp l = Ok r /\ r ≡ₚ l /\ StronglySorted R1 r.
  Proof.
    induction l as [|x l IH]; intros Hc Hs; cbn [stable_sort]; [eexists; split; [done|]; split; [done|constructor]|].
    apply StronglySorted_inv in Hs as [Hs Hx]. destruct IH as (r & -> & Hp & Hr); [intros y z Hy Hz; apply Hc; by right|done|]. cbn [obind].
    destruct (ins_spec cmp x r) as (r' & E & Hp' & Hr'); [|done|by rewrite Hp|].
    - intros y Hy. rewrite Hp in Hy. apply Hc; [by left|by right].
    - exists r'. split; [done|]. split; [|done]. by rewrite Hp', Hp.
  Qed.

  (** the maximal runs *)
  Fixpoint runs (l : list nat) : list (list nat) :=
    match l with
    | [] => []
    | x :: l' => match runs l' with
                 | (y :: r) :: rest => if decide (same_by k x y) then (x :: y :: r) :: rest else [x] :: (y :: r) :: rest
                 | other => [x] :: other
                 end
    end.
  Definition before (B B' : list nat) : Prop := forall x y, x ∈ B -> y ∈ B' -> less_by k x y.
  Definition block_ok (B : list nat) : Prop := B <> [] /\ StronglySorted lt B /\ forall x y, x ∈ B -> y ∈ B -> same_by k x y.
  Lemma block_single x : block_ok [x].
  Proof. split; [done|]. split; [repeat constructor|]. intros a b Ha Hb. apply elem_of_list_singleton in Ha as ->. apply elem_of_list_singleton in Hb as ->. apply same_refl. Qed.
  Lemma runs_concat l : concat (runs l) = l.
  Proof. induction l as [|x l IH]; [done|]. cbn [runs]. destruct (runs l) as [|[|y r] rest]; cbn [concat app] in *; [by rewrite <- IH|by rewrite <- IH|]. case_decide; cbn [concat app]; by rewrite <- IH. Qed.
  Lemma runs_spec l : StronglySorted R1 l -> Forall block_ok (runs l) /\ StronglySorted before (runs l).
  Proof.
    induction l as [|x l IH]; intros Hs; [split; constructor|]. apply StronglySorted_inv in Hs as [Hs Hx]. destruct (IH Hs) as [Hb Hss]. pose proof (runs_concat l) as Hcat. cbn [runs].
    destruct (runs l) as [|[|y r] rest].
    - split; [|repeat constructor]. constructor; [apply block_single|constructor].
    - apply Forall_cons in Hb as [(Hne & _) _]. done.
    - apply Forall_cons in Hb as [(_ & Hyr & Hsame) Hb]. apply StronglySorted_inv in Hss as [Hss Hbef]. cbn [concat app] in Hcat. rewrite Forall_forall in Hx.
      assert (HxR : forall z, z ∈ y :: r -> R1 x z). { intros z Hz. apply Hx. rewrite <- Hcat. change (z ∈ (y :: r) ++ concat rest). apply elem_of_app. by left. }
      rewrite Forall_forall in Hbef. destruct (decide (same_by k x y)) as [Hxy|Hxy].
      + assert (Hxs : forall z, z ∈ y :: r -> same_by k x z). { intros z Hz. apply (same_trans _ y); [done|]. apply Hsame; [by left|done]. }
        split.
        * constructor; [|done]. split; [done|]. split.
          -- constructor; [done|]. apply Forall_forall. intros z Hz. destruct (HxR z Hz) as [Hl|[_ ?]]; [|done]. exfalso. specialize (Hxs z Hz). apply same_iff in Hxs. tauto.
          -- intros a b Ha Hb'. apply elem_of_cons in Ha as [->|Ha]; apply elem_of_cons in Hb' as [->|Hb']; [apply same_refl|by apply Hxs|apply same_sym; by apply Hxs|by apply Hsame].
        * constructor; [done|]. apply Forall_forall. intros B HB a b Ha Hb'. apply elem_of_cons in Ha as [->|Ha].
          -- apply (same_less _ y); [done|]. apply (Hbef B HB); [by left|done].
          -- by apply (Hbef B HB).
      + assert (Hlxy : less_by k x y). { destruct (HxR y) as [?|[? _]]; [by left|done|done]. }
        split.
        * constructor; [apply block_single|]. by constructor.
        * constructor; [constructor; [done|by apply Forall_forall]|]. constructor.
          -- intros a b Ha Hb'. apply elem_of_list_singleton in Ha as ->. apply (less_same _ y); [done|]. apply Hsame; [by left|done].
          -- apply Forall_forall. intros B HB a b Ha Hb'. apply elem_of_list_singleton in Ha as ->. apply (less_trans _ y); [done|]. apply (Hbef B HB); [by left|done].
  Qed.
End Key.

(** * lexicographic comparison *)
Lemma lex_same_app ks k i j : lex_same (ks ++ [k]) i j <-> lex_same ks i j /\ same_by k i j.
Proof. unfold lex_same. rewrite Forall_app. split; intros [H1 H2]; (split; [done|]); [by inversion H2|by constructor]. Qed.
Lemma lex_less_app ks k i j : lex_less (ks ++ [k]) i j <-> lex_less ks i j \/ (lex_same ks i j /\ less_by k i j).
Proof.
  induction ks as [|k0 ks IH]; cbn [app lex_less].
  - split; [intros [?|[_ []]]; right; split; [constructor|done]|]. intros [[]|[_ ?]]. by left.
  - rewrite IH. unfold lex_same. rewrite Forall_cons. tauto.
Qed.
Definition weak_keys (ks : list skey) : Prop := Forall (fun k => weak_order (s_lt k)) ks.
Lemma lex_less_not_same ks i j : weak_keys ks -> lex_less ks i j -> ~ lex_same ks i j.
Proof.
  intros Hw. induction Hw as [|k ks Hk _ IH]; cbn [lex_less]; [done|]. unfold lex_same. rewrite Forall_cons. intros [H|[H1 H2]] [H3 H4].
  - apply same_iff in H3. tauto.
  - by apply IH.
Qed.
Lemma lex_same_sym ks i j : lex_same ks i j -> lex_same ks j i.
Proof. unfold lex_same. intros H. eapply Forall_impl; [exact H|]. intros k. apply same_sym. Qed.
Lemma lex_trans ks i j l : weak_keys ks -> lex_less ks i j -> lex_less ks j l -> lex_less ks i l.
Proof.
  intros Hw. induction Hw as [|k ks Hk _ IH]; cbn [lex_less]; [done|]. intros [H1|[H1 H1']] [H2|[H2 H2']].
  - left. by apply (less_trans k Hk _ j).
  - left. by apply (less_same k Hk _ j).
  - left. by apply (same_less k Hk _ j).
  - right. split; [by apply (same_trans k Hk _ j)|auto].
Qed.

(** * blocks of rows that agree on the keys so far *)
Definition good (ks : list skey) (bs : list (list nat)) : Prop :=
  Forall (fun B => StronglySorted lt B /\ forall x y, x ∈ B -> y ∈ B -> lex_same ks x y) bs /\
  StronglySorted (fun B B' => forall x y, x ∈ B -> y ∈ B' -> lex_less ks x y) bs.
Lemma seq_sorted' a k : StronglySorted lt (seq a k).
Proof. revert a. induction k as [|k IH]; intros a; [constructor|]. cbn [seq]. constructor; [apply IH|]. apply Forall_forall. intros x Hx. apply elem_of_seq in Hx. lia. Qed.
Lemma good_init n : good [] [seq 0 n].
Proof. split; [|repeat constructor]. constructor; [|constructor]. split; [apply seq_sorted'|]. intros. constructor. Qed.

Lemma elem_concat {A} (x : A) (bs : list (list A)) : x ∈ concat bs <-> exists B, B ∈ bs /\ x ∈ B.
Proof.
  induction bs as [|B bs IH]; cbn [concat]; [split; [intros H; by apply elem_of_nil in H|intros (B & H & _); by apply elem_of_nil in H]|].
  rewrite elem_of_app, IH. split.
  - intros [H|(B' & H & H')]; [exists B; split; [by left|done]|exists B'; split; [by right|done]].
  - intros (B' & H & H'). apply elem_of_cons in H as [->|H]; [by left|right; eauto].
Qed.
Lemma ss_concat {A} (R : A -> A -> Prop) (bs : list (list A)) : Forall (StronglySorted R) bs -> StronglySorted (fun B B' => forall x y, x ∈ B -> y ∈ B' -> R x y) bs -> StronglySorted R (concat bs).
Proof.
  induction bs as [|B bs IH]; intros HF HS; cbn [concat]; [constructor|]. apply Forall_cons in HF as [HB HF]. apply StronglySorted_inv in HS as [HS Hbef]. apply ss_app_iff. split; [done|]. split; [by apply IH|].
  intros x y Hx Hy. apply elem_concat in Hy as (B' & HB' & Hy). rewrite Forall_forall in Hbef. by apply (Hbef B' HB').
Qed.
Lemma good_sorted ks bs : good ks bs -> StronglySorted (comes_before ks) (concat bs).
Proof.
  intros [HF HS]. apply ss_concat.
  - eapply Forall_impl; [exact HF|]. intros B [Hlt Hs]. clear -Hlt Hs. induction Hlt as [|x B Hlt IH Hx]; [constructor|]. constructor.
    + apply IH. intros a b Ha Hb. apply Hs; by right.
    + apply Forall_forall. intros y Hy. rewrite Forall_forall in Hx. right. split; [apply Hs; [by left|by right]|by apply Hx].
  - clear HF. induction HS as [|B bs HS IH HB]; [constructor|]. constructor; [done|]. eapply Forall_impl; [exact HB|]. intros B' H x y Hx Hy. left. by apply H.
Qed.

Definition sorted_block (k : skey) (B S : list nat) : Prop := S ≡ₚ B /\ StronglySorted (R1 k) S.
Lemma good_step ks k bs ss : weak_order (s_lt k) -> good ks bs -> Forall2 (sorted_block k) bs ss -> good (ks ++ [k]) (concat (runs k <$> ss)).
Proof.
  intros Hk [HF HS] H2. induction H2 as [|B S bs ss [Hp HSS] H2 IH]; [split; constructor|]. apply Forall_cons in HF as [[_ Hsame] HF]. apply StronglySorted_inv in HS as [HS Hbef]. destruct (IH HF HS) as [HF' HS'].
  destruct (runs_spec k Hk S HSS) as [Hruns Hrs]. rewrite fmap_cons. cbn [concat].
  assert (Hin : forall B' x, B' ∈ runs k S -> x ∈ B' -> x ∈ B). { intros B' x HB' Hx. rewrite <- Hp. rewrite <- (runs_concat k S). apply elem_concat. eauto. }
  split.
  - apply Forall_app. split; [|done]. apply Forall_forall. intros B' HB'. rewrite Forall_forall in Hruns. destruct (Hruns B' HB') as (_ & Hlt & Hs). split; [done|].
    intros x y Hx Hy. apply lex_same_app. split; [|by apply Hs]. apply Hsame; by apply (Hin B').
  - apply ss_app_iff. split; [|split; [done|]].
    + assert (Hall : forall B', B' ∈ runs k S -> forall x, x ∈ B' -> x ∈ B) by eauto. clear -Hrs Hall Hsame. induction Hrs as [|B1 rs Hrs IH Hb]; [constructor|]. constructor.
      * apply IH. intros B' HB'. apply Hall. by right.
      * apply Forall_forall. intros B' HB' x y Hx Hy. rewrite Forall_forall in Hb. apply lex_less_app. right. split.
        -- apply Hsame; [apply (Hall B1); [by left|done]|apply (Hall B'); [by right|done]].
        -- by apply (Hb B' HB').
    + intros B1 B2 HB1 HB2 x y Hx Hy. apply lex_less_app. left. apply elem_concat in HB2 as (rs & Hrs2 & HB2). apply elem_of_list_fmap in Hrs2 as (S2 & -> & HS2).
      apply elem_of_list_lookup in HS2 as (i & Hi). destruct (Forall2_lookup_r _ _ _ _ _ H2 Hi) as (B2' & HB2' & [Hp2 _]). rewrite Forall_forall in Hbef. apply (Hbef B2'); [by apply elem_of_list_lookup_2 in HB2'|by apply (Hin B1)|].
      rewrite <- Hp2. rewrite <- (runs_concat k S2). apply elem_concat. eauto.
Qed.
Lemma concat_runs k ss : concat (concat (runs k <$> ss)) = concat ss.
Proof. induction ss as [|S ss IH]; [done|]. rewrite fmap_cons. cbn [concat]. rewrite concat_app, IH, runs_concat. done. Qed.
Lemma runs_nonempty k l : Forall (fun B => B <> []) (runs k l).
Proof. induction l as [|x l IH]; [constructor|]. cbn [runs]. destruct (runs k l) as [|[|y r] rest]; [repeat constructor; done|by constructor|]. apply Forall_cons in IH as [_ IH]. case_decide; repeat (constructor; [done|]); done. Qed.

(** * groups *)
Fixpoint gpos (off : nat) (bs : list (list nat)) : list group :=
  match bs with [] => [] | B :: bs' => (if decide (2 <= length B) then [(off, off + length B)] else []) ++ gpos (off + length B) bs' end.
Inductive gof : nat -> list (list nat) -> list group -> Prop :=
  | gof_nil off : gof off [] []
  | gof_in off B bs gs : gof (off + length B) bs gs -> gof off (B :: bs) ((off, off + length B) :: gs)
  | gof_out off B bs gs : length B <= 1 -> gof (off + length B) bs gs -> gof off (B :: bs) gs.
Lemma gof_gpos bs : forall off, gof off bs (gpos off bs).
Proof. induction bs as [|B bs IH]; intros off; cbn [gpos]; [constructor|]. case_decide; cbn [app]; constructor; auto. lia. Qed.
Lemma gof_ext off bs gs : gof off bs gs -> forall ss, Forall2 (fun B S : list nat => length S = length B) bs ss -> gof off ss gs.
Proof.
  induction 1 as [|off B bs gs H IH|off B bs gs Hl H IH]; intros ss HF.
  - apply Forall2_nil_inv_l in HF as ->. constructor.
  - apply Forall2_cons_inv_l in HF as (S & ss' & HS & HF & ->). rewrite <- HS. constructor. rewrite HS. auto.
  - apply Forall2_cons_inv_l in HF as (S & ss' & HS & HF & ->). constructor; [lia|]. rewrite HS. auto.
Qed.
Lemma gpos_app off bs cs : gpos off (bs ++ cs) = gpos off bs ++ gpos (off + length (concat bs)) cs.
Proof.
  revert off. induction bs as [|B bs IH]; intros off; cbn [app gpos concat length]; [by rewrite Nat.add_0_r|]. rewrite IH, app_length, <- app_assoc. do 3 f_equal. lia.
Qed.
Lemma gpos_in off bs g : g ∈ gpos off bs <-> exists pre B post, bs = pre ++ B :: post /\ 2 <= length B /\ g = (off + length (concat pre), off + length (concat pre) + length B).
Proof.
  split.
  - revert off. induction bs as [|B bs IH]; intros off; cbn [gpos]; [intros H; by apply elem_of_nil in H|]. intros H. apply elem_of_app in H as [H|H].
    + case_decide; [|by apply elem_of_nil in H]. apply elem_of_list_singleton in H as ->. exists [], B, bs. cbn. rewrite Nat.add_0_r. auto.
    + destruct (IH _ H) as (pre & B' & post & -> & Hl & ->). exists (B :: pre), B', post. cbn [concat app]. rewrite app_length. split; [done|]. split; [done|]. f_equal; lia.
  - intros (pre & B & post & -> & Hl & ->). rewrite gpos_app. apply elem_of_app. right. cbn [gpos]. rewrite decide_True by done. by left.
Qed.
Lemma gpos_sorted bs : forall off, StronglySorted (fun g h : group => snd g <= fst h) (gpos off bs) /\ Forall (fun g : group => off <= fst g) (gpos off bs).
Proof.
  induction bs as [|B bs IH]; intros off; cbn [gpos]; [split; constructor|]. destruct (IH (off + length B)) as [Hs Hf]. case_decide; cbn [app].
  - split; [constructor; [done|exact Hf]|]. constructor; [cbn; lia|]. eapply Forall_impl; [exact Hf|]. cbn. intros; lia.
  - split; [done|]. eapply Forall_impl; [exact Hf|]. cbn. intros; lia.
Qed.
Lemma split_at {A} (bs : list (list A)) i : i < length (concat bs) -> exists pre B post, bs = pre ++ B :: post /\ length (concat pre) <= i < length (concat pre) + length B.
Proof.
  revert i. induction bs as [|B bs IH]; intros i Hi; cbn [concat] in *; [cbn in Hi; lia|]. rewrite app_length in Hi. destruct (decide (i < length B)).
  - exists [], B, bs. cbn. split; [done|lia].
  - destruct (IH (i - length B)) as (pre & B' & post & -> & H); [lia|]. exists (B :: pre), B', post. cbn [concat app]. rewrite app_length. split; [done|lia].
Qed.
Lemma total_in {A} `{Inhabited A} (l : list A) i : i < length l -> l !!! i ∈ l.
Proof. intros Hi. destruct (lookup_lt_is_Some_2 l i Hi) as [x Hx]. rewrite (list_lookup_total_correct _ _ _ Hx). by apply elem_of_list_lookup_2 in Hx. Qed.
Lemma good_groups ks bs : weak_keys ks -> good ks bs -> groups_of ks (concat bs) (gpos 0 bs).
Proof.
  intros Hw [HF HS]. split; [apply gpos_sorted|].
  (* membership in a block is having the same keys *)
  assert (Hin : forall pre B post i, bs = pre ++ B :: post -> length (concat pre) <= i < length (concat pre) + length B -> concat bs !!! i ∈ B).
  { intros pre B post i -> Hi. rewrite concat_app. cbn [concat]. rewrite lookup_total_app_r by lia. rewrite lookup_total_app_l by lia. apply total_in. lia. }
  assert (Hsame : forall pre B post x y, bs = pre ++ B :: post -> x ∈ B -> y ∈ B -> lex_same ks x y).
  { intros pre B post x y -> Hx Hy. apply Forall_app in HF as [_ HF]. apply Forall_cons in HF as [[_ H] _]. by apply H. }
  assert (Hdiff : forall pre B post i x, bs = pre ++ B :: post -> i < length (concat bs) -> ~ (length (concat pre) <= i < length (concat pre) + length B) -> x ∈ B -> ~ lex_same ks (concat bs !!! i) x).
  { intros pre B post i x -> Hi Hn Hx Hs. apply ss_app_iff in HS as (_ & HS & Hpre). apply StronglySorted_inv in HS as [_ Hpost].
    rewrite concat_app in *. cbn [concat] in *. rewrite !app_length in Hi. destruct (decide (i < length (concat pre))) as [Hlt|Hge].
    - rewrite lookup_total_app_l in Hs by lia. pose proof (total_in (concat pre) i Hlt) as Hp. apply elem_concat in Hp as (B' & HB' & Hp). apply (lex_less_not_same ks _ _ Hw) in Hs; [done|].
      apply (Hpre B' B); [done|by left|done|done].
    - rewrite lookup_total_app_r in Hs by lia. rewrite lookup_total_app_r in Hs by lia. match type of Hs with lex_same _ (concat post !!! ?j) _ => pose proof (total_in (concat post) j ltac:(lia)) as Hp end.
      apply elem_concat in Hp as (B' & HB' & Hp). apply lex_same_sym in Hs. apply (lex_less_not_same ks _ _ Hw) in Hs; [done|]. rewrite Forall_forall in Hpost. by apply (Hpost B'). }
  intros [a b]. rewrite gpos_in. unfold is_group. cbn [fst snd]. split.
  - intros (pre & B & post & E & Hl & [= -> ->]). cbn [plus]. assert (Hlen : length (concat pre) + length B <= length (concat bs)). { rewrite E, concat_app. cbn [concat]. rewrite !app_length. lia. }
    split; [lia|]. split.
    + intros i j Hi Hj. apply (Hsame pre B post); [done| |]; by eapply Hin.
    + intros i Hi Hn. apply (Hdiff pre B post); [done|done|done|]. eapply Hin; [done|lia].
  - intros (Hab & Hsm & Hmax). destruct (split_at bs a ltac:(lia)) as (pre & B & post & E & Ha). exists pre, B, post. split; [done|]. cbn [plus].
    assert (HaB : concat bs !!! a ∈ B) by (by eapply Hin).
    assert (Hlen : length (concat pre) + length B <= length (concat bs)). { rewrite E, concat_app. cbn [concat]. rewrite !app_length. lia. }
    assert (H1 : forall i, length (concat pre) <= i < length (concat pre) + length B -> a <= i < b).
    { intros i Hi. destruct (decide (a <= i < b)); [done|]. exfalso. apply (Hmax i); [lia|done|]. apply (Hsame pre B post); [done| |done]. by eapply Hin. }
    assert (H2 : forall i, a <= i < b -> length (concat pre) <= i < length (concat pre) + length B).
    { intros i Hi. destruct (decide (length (concat pre) <= i < length (concat pre) + length B)); [done|]. exfalso. apply (Hdiff pre B post i (concat bs !!! a)); [done|lia|done|done|]. apply Hsm; lia. }
    pose proof (H1 (length (concat pre)) ltac:(lia)). pose proof (H2 (b - 1) ltac:(lia)). pose proof (H1 (length (concat pre) + length B - 1) ltac:(lia)). split; [lia|]. f_equal; lia.
Qed.

(** * the code *)
(** [c] is the column with the values of [s] for [n] rows; != is the complement of equivalence under <. *)
Definition key_for (n : nat) (c : key) (s : skey) : Prop :=
  exists ne (a : dmat (s_type s)) col m x junk, c = mkKey (s_type s) (s_lt s) ne a col (s_asc s) junk /\ is_dense a n m x /\ col < m /\
    (forall r, r < n -> x r col = s_val s r) /\ weak_order (s_lt s) /\ (forall v w, ne v w = s_lt s v w || s_lt s w v) /\ (forall q, length (junk q) = q).

Lemma compare_spec n c s i j : key_for n c s -> i < n -> j < n -> exists b, compare c i j = Ok b /\ (b = true <-> less_by s i j).
Proof.
  intros (ne & a & col & m & x & junk & -> & Ha & Hcol & Hx & _) Hi Hj. unfold compare. cbn [k_type k_mat k_col k_lt k_asc].
  pose proof (dm_at_Ok a n m x i col Ha Hi Hcol) as E1. pose proof (dm_at_Ok a n m x j col Ha Hj Hcol) as E2. unfold dm_at in E1, E2. rewrite E1. cbn [obind]. rewrite E2. cbn [obind].
  eexists. split; [done|]. unfold less_by. by rewrite (Hx i Hi), (Hx j Hj).
Qed.
Lemma column_sort_spec n c s : key_for n c s -> forall bs gs pre, gof (length pre) bs gs -> Forall (fun B => StronglySorted lt B /\ Forall (fun i => i < n) B) bs ->
  exists ss, Forall2 (sorted_block s) bs ss /\ column_sort c gs (pre ++ concat bs) = Ok (pre ++ concat ss).
Proof.
  intros Hkey bs gs pre Hg. remember (length pre) as off eqn:Hoff. revert pre Hoff. induction Hg as [off|off B bs gs Hg IH|off B bs gs Hl Hg IH]; intros pre Hoff HF.
  - exists []. by split; [constructor|].
  - apply Forall_cons in HF as [[Hlt Hn] HF]. assert (Hw : weak_order (s_lt s)) by (destruct Hkey as (? & ? & ? & ? & ? & ? & _ & _ & _ & _ & ? & _); done). rewrite Forall_forall in Hn.
    destruct (stable_sort_spec s Hw (compare c) B) as (S & E & Hp & HS); [|done|].
    { intros x y Hx Hy. apply (compare_spec n c s); [done|by apply Hn|by apply Hn]. }
    assert (Hlen : length S = length B) by (by rewrite Hp).
    destruct (IH (pre ++ S)) as (ss & H2 & E2); [rewrite app_length; lia|done|]. exists (S :: ss). split; [by constructor|]. unfold column_sort in *. cbn [over concat fst snd].
    rewrite decide_True by (rewrite !app_length; lia). replace (off + length B - off) with (length B) by lia. rewrite Hoff, drop_app, take_app, E. cbn [obind]. rewrite take_app.
    rewrite <- drop_drop, drop_app, drop_app. rewrite app_assoc, E2, <- app_assoc. done.
  - apply Forall_cons in HF as [_ HF]. destruct (IH (pre ++ B)) as (ss & H2 & E2); [rewrite app_length; lia|done|]. exists (B :: ss). split.
    + constructor; [|done]. split; [done|]. destruct B as [|x [|]]; [constructor|repeat constructor|cbn in Hl; lia].
    + cbn [concat]. rewrite !app_assoc in *. exact E2.
Qed.

Section Scan.
  Context (s : skey) (Hw : weak_order (s_lt s)) (p : list nat) (ne : s_type s -> s_type s -> bool) (t : dmat (s_type s)) (m : nat) (y : nat -> nat -> s_type s) (col : nat).
  Context (Hne : forall v w, ne v w = s_lt s v w || s_lt s w v) (Ht : is_dense t (length p) m y) (Hcol : col < m) (Hy : forall i, i < length p -> y i col = s_val s (p !!! i)).
  Definition ptr (q : nat) : nat := m_off t + q * m_skip t + col.
  Lemma skip_pos : 0 < m_skip t.
  Proof. destruct Ht as (_ & _ & H & _). lia. Qed.
  Lemma rd_ptr q : q < length p -> rd (m_buf t) (ptr q) = Ok (s_val s (p !!! q)).
  Proof. intros Hq. pose proof (dm_at_Ok t (length p) m y q col Ht Hq Hcol) as E. unfold dm_at in E. unfold ptr. rewrite E. by rewrite Hy. Qed.
  Lemma ptr_inj q q' : ptr q = ptr q' -> q = q'.
  Proof. unfold ptr. pose proof skip_pos. nia. Qed.
  Lemma ptr_back q : (ptr q - m_off t - col) / m_skip t = q.
  Proof. unfold ptr. pose proof skip_pos. replace (m_off t + q * m_skip t + col - m_off t - col) with (q * m_skip t) by lia. apply Nat.div_mul. lia. Qed.
  Lemma ne_same i j : ne (s_val s i) (s_val s j) = false <-> same_by s i j.
  Proof. rewrite Hne. unfold same_by. destruct (s_lt s (s_val s i) (s_val s j)), (s_lt s (s_val s j) (s_val s i)); cbn; split; try done; by intros [? ?]. Qed.

  Lemma next_run_spec pre B rest post j fuel : p = pre ++ B ++ concat rest ++ post -> B <> [] -> (forall x z, x ∈ B -> z ∈ B -> same_by s x z) -> (forall x z, x ∈ B -> z ∈ concat rest -> less_by s x z) ->
    Forall (fun B => B <> []) rest -> j <= length B -> length B - j < fuel ->
    next_run fuel ne (m_buf t) (ptr (length pre)) (ptr (length pre + j)) (ptr (length pre + length B + length (concat rest))) (m_skip t) = Ok (ptr (length pre + length B)).
  Proof.
    intros Ep HB Hsame Hless Hrest. revert fuel. remember (length B - j) as d eqn:Hd. revert j Hd. induction d as [|d IH]; intros j Hd fuel Hj Hf.
    - assert (j = length B) as -> by lia. destruct fuel as [|fuel]; [lia|]. cbn [next_run]. destruct rest as [|B' rest].
      + cbn [concat length]. rewrite Nat.add_0_r. rewrite decide_True by done. done.
      + apply Forall_cons in Hrest as [HB' _]. destruct B' as [|z B']; [done|]. cbn [concat app length]. rewrite decide_False by (intros E; apply ptr_inj in E; lia).
        assert (Hlp : length p = length pre + (length B + (length (concat ((z :: B') :: rest)) + length post))). { rewrite Ep. by rewrite !app_length. }
        cbn [concat app length] in Hlp. rewrite rd_ptr by lia. cbn [obind]. rewrite rd_ptr by lia. cbn [obind].
        assert (E1 : p !!! (length pre + length B) = z). { rewrite Ep. rewrite lookup_total_app_r by lia. rewrite lookup_total_app_r by lia. replace (length pre + length B - length pre - length B) with 0 by lia. done. }
        assert (E2 : p !!! length pre ∈ B). { rewrite Ep. rewrite lookup_total_app_r by lia. rewrite Nat.sub_diag. destruct B; [done|]. cbn. by left. }
        rewrite E1. destruct (ne (s_val s z) (s_val s (p !!! length pre))) eqn:En; [done|]. exfalso. apply ne_same in En. pose proof (Hless (p !!! length pre) z E2 ltac:(by left)) as Hl. apply same_iff in En. tauto.
    - destruct fuel as [|fuel]; [lia|]. cbn [next_run]. rewrite decide_False by (intros E; apply ptr_inj in E; lia).
      assert (Hlp : length p = length pre + (length B + (length (concat rest) + length post))). { rewrite Ep. by rewrite !app_length. }
      rewrite rd_ptr by lia. cbn [obind]. rewrite rd_ptr by lia. cbn [obind].
      assert (E1 : p !!! (length pre + j) ∈ B). { rewrite Ep. rewrite lookup_total_app_r by lia. rewrite lookup_total_app_l by lia. apply total_in. lia. }
      assert (E2 : p !!! length pre ∈ B). { rewrite Ep. rewrite lookup_total_app_r by lia. rewrite Nat.sub_diag. destruct B; [done|]. cbn. by left. }
      assert (En : ne (s_val s (p !!! (length pre + j))) (s_val s (p !!! length pre)) = false) by (apply ne_same; by apply Hsame). rewrite En.
      replace (ptr (length pre + j) + m_skip t) with (ptr (length pre + (j + 1))) by (unfold ptr; lia). apply IH; lia.
  Qed.
  Lemma scan_runs_spec bs : forall pre post acc fuel, p = pre ++ concat bs ++ post -> Forall (block_ok s) bs -> StronglySorted (before s) bs -> length bs <= fuel ->
    scan_runs fuel ne t col (ptr (length pre)) (ptr (length pre + length (concat bs))) acc = Ok (Some (acc ++ gpos (length pre) bs)).
  Proof.
    induction bs as [|B bs IH]; intros pre post acc fuel Ep HF HS Hf.
    - cbn [concat length]. rewrite Nat.add_0_r. destruct fuel; cbn [scan_runs]; (rewrite decide_True by done); cbn [gpos]; by rewrite app_nil_r.
    - apply Forall_cons in HF as [(HB & _ & Hsame) HF]. apply StronglySorted_inv in HS as [HS Hbef]. destruct fuel as [|fuel]; [cbn in Hf; lia|]. cbn [concat length] in *. rewrite app_length. cbn [scan_runs].
      assert (0 < length B) by (destruct B; [done|cbn; lia]). rewrite decide_False by (intros E; apply ptr_inj in E; lia). rewrite <- app_assoc in Ep.
      assert (Hlp : length p = length pre + (length B + (length (concat bs) + length post))). { rewrite Ep. by rewrite !app_length. }
      assert (Hlb : length p <= length (m_buf t)). { destruct Ht as (_ & _ & Hm & [Hl|Hl] & _); [lia|]. nia. }
      rewrite Nat.add_assoc. pose proof (next_run_spec pre B bs post 0 (S (length (m_buf t))) Ep HB Hsame) as Hnext. rewrite Nat.add_0_r in Hnext. rewrite Hnext; clear Hnext; [|  |  |lia|lia].
      + cbn [obind]. rewrite !ptr_back. specialize (IH (pre ++ B) post). rewrite app_length in IH. replace (length pre + length B - 0) with (length pre + length B) in IH by lia.
        rewrite IH; [| by rewrite <- app_assoc| done| done| lia]. f_equal. f_equal. cbn [gpos]. pose proof skip_pos as Hsk. destruct (decide (2 <= length B)) as [H2|H2].
        * rewrite decide_True by (unfold ptr; nia). by rewrite <- app_assoc.
        * rewrite decide_False by (unfold ptr; nia). done.
      + intros x z Hx Hz. apply elem_concat in Hz as (B' & HB' & Hz). rewrite Forall_forall in Hbef. by apply (Hbef B' HB').
      + eapply Forall_impl; [exact HF|]. by intros B' [? _].
  Qed.
  Lemma scan_groups_spec fuel : length p <= fuel -> forall ss gs pre post acc, p = pre ++ concat ss ++ post -> gof (length pre) ss gs -> Forall (StronglySorted (R1 s)) ss ->
    scan_groups fuel ne t col gs acc = Ok (Some (acc ++ gpos (length pre) (concat (runs s <$> ss)))).
  Proof.
    intros Hfuel ss gs pre post acc Ep Hg. remember (length pre) as off eqn:Hoff. revert pre Hoff acc Ep. induction Hg as [off|off B bs gs Hg IH|off B bs gs Hl Hg IH]; intros pre Hoff acc Ep HF.
    - cbn. by rewrite app_nil_r.
    - apply Forall_cons in HF as [HB HF]. cbn [scan_groups fst snd]. destruct (runs_spec s Hw B HB) as [Hok Hss]. cbn [concat] in Ep. rewrite <- app_assoc in Ep.
      fold (ptr off). fold (ptr (off + length B)). subst off. rewrite <- (runs_concat s B) at 1. rewrite (scan_runs_spec (runs s B) pre (concat bs ++ post) acc fuel); [|by rewrite runs_concat|done|done|].
      + cbn [obind]. rewrite (IH (pre ++ B)); [|by rewrite app_length|by rewrite <- app_assoc|done]. f_equal. f_equal. rewrite fmap_cons. cbn [concat]. rewrite gpos_app, runs_concat, <- app_assoc. done.
      + transitivity (length (concat (runs s B))); [|rewrite runs_concat, <- Hfuel, Ep, !app_length; lia]. clear -Hok. induction Hok as [|B' rs [HB' _] _ IH]; [cbn; lia|]. cbn [concat length]. rewrite app_length. destruct B'; [done|]. cbn [length]. lia.
    - apply Forall_cons in HF as [HB HF]. cbn [concat] in Ep. rewrite <- app_assoc in Ep. subst off. rewrite (IH (pre ++ B)); [|by rewrite app_length|by rewrite <- app_assoc|done]. f_equal. f_equal. f_equal.
      rewrite fmap_cons. cbn [concat]. destruct B as [|b [|]]; [cbn; by rewrite Nat.add_0_r| |cbn in Hl; lia]. done.
  Qed.
End Scan.

Lemma idx_column_col idx : column (idx_column idx) (Z.of_nat <$> idx).
Proof. unfold idx_column. rewrite <- (fmap_length Z.of_nat idx). apply column_mk. by rewrite take_ge. Qed.
Lemma extract_idx {V} (a : dmat V) n m x junk idx : is_dense a n m x -> (Z.of_nat n < 2 ^ 63)%Z -> Forall (fun i => i < n) idx -> length junk = length idx * m ->
  exists res, extract_row junk a (idx_column idx) = Ok res /\ is_dense res (length idx) m (fun r c => x (idx !!! r) c).
Proof.
  intros Ha Hn Hidx Hj. destruct (C43_extract_rows junk a (idx_column idx) n m x (Z.of_nat <$> idx) idx) as (res & E & Hres); try done.
  - apply idx_column_col.
  - by left.
  - apply Forall_fmap. eapply Forall_impl; [exact Hidx|]. cbn. intros; lia.
  - apply Forall2_fmap_l. apply Forall_Forall2_diag. eapply Forall_impl; [exact Hidx|]. intros i Hi. cbn beta in Hi. change (sel_pos n (Z.of_nat i) = Some i). unfold sel_pos. rewrite decide_True by lia. f_equal. lia.
  - by rewrite fmap_length.
  - rewrite fmap_length in Hres. eauto.
Qed.

(** The state between two keys. *)
Definition inv (n : nat) (ks : list skey) (st : ostate) : Prop := exists bs, fst st = concat bs /\ concat bs ≡ₚ seq 0 n /\ good ks bs /\ gof 0 bs (snd st).
Lemma inv_init n : inv n [] (seq 0 n, [(0, n)]).
Proof.
  exists [seq 0 n]. cbn [fst snd concat]. rewrite app_nil_r. split; [done|]. split; [done|]. split; [apply good_init|]. rewrite <- (seq_length n 0) at 2. apply (gof_in 0 (seq 0 n) [] []). constructor.
Qed.
Lemma sort_step n ks c s st : inv n ks st -> key_for n c s ->
  exists bs ss, fst st = concat bs /\ concat ss ≡ₚ seq 0 n /\ good (ks ++ [s]) (concat (runs s <$> ss)) /\ gof 0 ss (snd st) /\ Forall (StronglySorted (R1 s)) ss /\ column_sort c (snd st) (fst st) = Ok (concat ss).
Proof.
  intros (bs & E & Hp & Hg & Hgof) Hkey. destruct (column_sort_spec n c s Hkey bs (snd st) [] Hgof) as (ss & H2 & Ecs).
  - apply Forall_forall. intros B HB. destruct Hg as [HF _]. rewrite Forall_forall in HF. split; [by apply HF|]. apply Forall_forall. intros i Hi. assert (Hin : i ∈ concat bs) by (apply elem_concat; eauto).
    rewrite Hp in Hin. apply elem_of_seq in Hin. lia.
  - cbn [app] in Ecs. exists bs, ss. split; [done|]. split; [|split; [|split; [|split; [|by rewrite E]]]].
    + rewrite <- Hp. clear -H2. induction H2 as [|B S bs ss [Hp _] _ IH]; [done|]. cbn [concat]. by rewrite Hp, IH.
    + apply (good_step ks s bs); [|done|done]. destruct Hkey as (? & ? & ? & ? & ? & ? & _ & _ & _ & _ & ? & _). done.
    + apply (gof_ext 0 bs); [done|]. eapply Forall2_impl; [exact H2|]. intros B S [Hps _]. by rewrite Hps.
    + clear -H2. induction H2 as [|B S bs ss [_ ?] _ IH]; constructor; done.
Qed.
Lemma multi_step fuel n ks c s st : (Z.of_nat n < 2 ^ 63)%Z -> n <= fuel -> inv n ks st -> key_for n c s ->
  exists bs, multi_sort fuel c st = Ok (Some (concat bs, gpos 0 bs)) /\ concat bs ≡ₚ seq 0 n /\ good (ks ++ [s]) bs /\ Forall (fun B => B <> []) bs.
Proof.
  intros Hn Hfuel Hinv Hkey. destruct (sort_step n ks c s st Hinv Hkey) as (bs & ss & E & Hp & Hg & Hgof & HR & Ecs). exists (concat (runs s <$> ss)).
  assert (Hlen : length (concat ss) = n) by (by rewrite Hp, seq_length). rewrite concat_runs. split; [|split; [done|]; split; [done|]; clear; induction ss as [|S ss IH]; [constructor|]; rewrite fmap_cons; cbn [concat]; apply Forall_app; split; [apply runs_nonempty|done]]. unfold multi_sort. rewrite Ecs. cbn [obind].
  destruct Hkey as (ne & a & col & m & x & junk & -> & Ha & Hcol & Hx & Hw & Hne & Hjunk). cbn [k_type k_junk k_mat k_ne k_col]. pose proof Ha as (_ & Cm & _). rewrite Cm.
  assert (Hlt : Forall (fun i => i < n) (concat ss)). { apply Forall_forall. intros i Hi. rewrite Hp in Hi. apply elem_of_seq in Hi. lia. }
  destruct (extract_idx a n m x (junk (length (concat ss) * m)) (concat ss) Ha Hn Hlt) as (tmp & -> & Htmp); [apply Hjunk|]. cbn [obind].
  pose proof (scan_groups_spec s Hw (concat ss) ne tmp m _ col Hne Htmp Hcol) as Hscan.
  rewrite (Hscan) with (ss := ss) (pre := []) (post := []); [done| |lia|by rewrite app_nil_r|done|done].
  intros i Hi. cbn beta. apply Hx. rewrite Forall_forall in Hlt. apply Hlt. by apply total_in.
Qed.
Lemma multi_sorts_spec fuel n : (Z.of_nat n < 2 ^ 63)%Z -> n <= fuel -> forall cs ss ks st, Forall2 (key_for n) cs ss -> inv n ks st -> exists st', multi_sorts fuel cs st = Ok (Some st') /\ inv n (ks ++ ss) st'.
Proof.
  intros Hn Hfuel. induction cs as [|c cs IH]; intros ss ks st H2 Hinv.
  - apply Forall2_nil_inv_l in H2 as ->. exists st. by rewrite app_nil_r.
  - apply Forall2_cons_inv_l in H2 as (s & ss' & Hk & H2 & ->). cbn [multi_sorts]. destruct (multi_step fuel n ks c s st Hn Hfuel Hinv Hk) as (bs & -> & Hp & Hg & _). cbn [obind].
    destruct (IH ss' (ks ++ [s]) (concat bs, gpos 0 bs) H2) as (st' & -> & Hinv'); [|exists st'; by rewrite <- app_assoc in Hinv'].
    exists bs. split; [done|]. split; [done|]. split; [done|]. apply gof_gpos.
Qed.
Lemma weak_keys_of n cs ss : Forall2 (key_for n) cs ss -> weak_keys ss.
Proof. induction 1 as [|c s cs ss (? & ? & ? & ? & ? & ? & _ & _ & _ & _ & ? & _) _ IH]; constructor; done. Qed.
Lemma order_idx_spec fuel n cs ss want : (Z.of_nat n < 2 ^ 63)%Z -> n <= fuel -> Forall2 (key_for n) cs ss -> cs <> [] ->
  exists p gs, order_idx fuel n cs want = Ok (Some (p, gs)) /\ ordered n ss p /\ (if want then groups_of ss p gs else gs = []).
Proof.
  intros Hn Hfuel H2 Hne. destruct (exists_last Hne) as (cs' & c & ->). apply Forall2_app_inv_l in H2 as (ss' & s1 & H2' & H1 & ->). apply Forall2_cons_inv_l in H1 as (s & nil' & Hk & Hnil & ->). apply Forall2_nil_inv_l in Hnil as ->.
  unfold order_idx. rewrite last_snoc. rewrite app_length. cbn [length]. replace (length cs' + 1 - 1) with (length cs') by lia. rewrite take_app.
  destruct (multi_sorts_spec fuel n Hn Hfuel cs' ss' [] _ H2' (inv_init n)) as (st & -> & Hinv). cbn [obind app] in *. destruct want.
  - destruct (multi_step fuel n ss' c s st Hn Hfuel Hinv Hk) as (bs & -> & Hp & Hg & _). eexists _, _. split; [done|]. split; [split; [done|by apply good_sorted]|]. apply good_groups; [|done].
    apply (weak_keys_of n (cs' ++ [c])). by apply Forall2_app; [|constructor; [|constructor]].
  - destruct (sort_step n ss' c s st Hinv Hk) as (bs & sorted & E & Hp & Hg & Hgof & HR & ->). cbn [obind]. eexists _, _. split; [done|]. split; [|done]. split; [done|].
    rewrite <- (concat_runs s). by apply good_sorted.
Qed.
Lemma order_idx_blocks fuel n cs ss : (Z.of_nat n < 2 ^ 63)%Z -> n <= fuel -> Forall2 (key_for n) cs ss -> cs <> [] ->
  exists bs, order_idx fuel n cs true = Ok (Some (concat bs, gpos 0 bs)) /\ concat bs ≡ₚ seq 0 n /\ good ss bs /\ Forall (fun B => B <> []) bs.
Proof.
  intros Hn Hfuel H2 Hne. destruct (exists_last Hne) as (cs' & c & ->). apply Forall2_app_inv_l in H2 as (ss' & s1 & H2' & H1 & ->). apply Forall2_cons_inv_l in H1 as (s & nil' & Hk & Hnil & ->). apply Forall2_nil_inv_l in Hnil as ->.
  unfold order_idx. rewrite last_snoc. rewrite app_length. cbn [length]. replace (length cs' + 1 - 1) with (length cs') by lia. rewrite take_app.
  destruct (multi_sorts_spec fuel n Hn Hfuel cs' ss' [] _ H2' (inv_init n)) as (st & -> & Hinv). cbn [obind app] in *.
  destruct (multi_step fuel n ss' c s st Hn Hfuel Hinv Hk) as (bs & -> & Hp & Hg & Hn0). exists bs. done.
Qed.
