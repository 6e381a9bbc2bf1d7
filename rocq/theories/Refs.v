(** Reference counters of data objects: no object is used after it was destroyed, none is destroyed twice, and none is left over. *)
From stdpp Require Import base numbers list.
From Coq Require Import Lia Permutation.
From Verif Require Import CppBase RefsModel.

(** * Specification *)
Definition cnt (h : heap) (o : nat) : nat := default 0 (h !! o).
Definition occ (x : nat) (l : list nat) : nat := length (filter (fun y => y = x) l).
(** Programs in SSA form: values are defined once, before they are used; numbers of values agree. [sc] are the values of the surrounding
    blocks, [ds] the values defined in the same block so far, [n] is the number of values handed out of the block. *)
Definition fresh (rs sc : list nat) : Prop := NoDup rs /\ forall v, v ∈ rs -> v ∉ sc.
Fixpoint ssa_op (sig : nat -> option (nat * nat)) (sc : list nat) (o : op) : Prop :=
  match o with
  | OKernel rs args => fresh rs sc /\ args ⊆ sc
  | OCast r a => r ∉ sc /\ a ∈ sc
  | OIf rs th el => fresh rs sc /\ ssa sig sc [] th (length rs) /\ ssa sig sc [] el (length rs)
  | OFor rs inits ps body => fresh rs sc /\ inits ⊆ sc /\ length inits = length rs /\ length ps = length rs /\ fresh ps sc /\ ssa sig sc ps body (length rs)
  | OWhile rs inits bps before aps after => fresh rs sc /\ inits ⊆ sc /\ length inits = length bps /\ length aps = length rs /\ fresh bps sc /\ fresh aps sc /\
      ssa sig sc bps before (length rs) /\ ssa sig sc aps after (length bps)
  | OCall f rs args => fresh rs sc /\ args ⊆ sc /\ sig f = Some (length args, length rs)
  | OInc _ | ODec _ => False
  end
with ssa (sig : nat -> option (nat * nat)) (sc ds : list nat) (c : code) (n : nat) : Prop :=
  match c with
  | CRet vs => length vs = n /\ vs ⊆ sc ++ ds
  | CCons o c => ssa_op sig (sc ++ ds) o /\ ssa sig sc (ds ++ results o) c n
  end.
(** The values handed out of a block: a branch of an if may hand out values of surrounding blocks, and each of its own values once; the
    body of a loop and a function hand out own values only, each at most twice. *)
Definition handed (k : kind) (ds vs : list nat) : Prop :=
  match k with
  | KIf => forall v, v ∈ ds -> occ v vs <= 1
  | KOther => forall v, v ∈ vs -> v ∈ ds /\ occ v vs <= 2
  end.
Fixpoint tidy_op (o : op) : Prop :=
  match o with
  | OIf _ th el => tidy KIf [] th /\ tidy KIf [] el
  | OFor _ _ ps body => tidy KOther ps body
  | OWhile _ _ bps before aps after => tidy KOther bps before /\ tidy KOther aps after
  | _ => True
  end
with tidy (k : kind) (ds : list nat) (c : code) : Prop :=
  match c with
  | CRet vs => handed k ds vs
  | CCons o c => tidy_op o /\ tidy k (ds ++ results o) c
  end.
(** A program: functions (with their numbers of results) *)
Definition sig_of (fns : list func) (nres : list nat) (f : nat) : option (nat * nat) :=
  fn ← fns !! f; n ← nres !! f; Some (length (f_params fn), n).
Definition good_func (sig : nat -> option (nat * nat)) (fn : func) (n : nat) : Prop :=
  NoDup (f_params fn) /\ ssa sig [] (f_params fn) (f_body fn) n /\ tidy KOther (f_params fn) (f_body fn).
Definition good_prog (fns : list func) (nres : list nat) : Prop := Forall2 (good_func (sig_of fns nres)) fns nres.

(** * Counting *)
Definition refs (e : env) (l : list nat) (o : nat) : nat := length (filter (fun v => e v = Some o) l).
Lemma refs_app e l l' o : refs e (l ++ l') o = refs e l o + refs e l' o.
Proof. unfold refs. by rewrite filter_app, app_length. Qed.
Lemma refs_cons e v l o : refs e (v :: l) o = (if decide (e v = Some o) then 1 else 0) + refs e l o.
Proof. unfold refs. rewrite filter_cons. by destruct (decide (e v = Some o)). Qed.
Lemma refs_perm e l l' o : l ≡ₚ l' -> refs e l o = refs e l' o.
Proof. intros Hp. unfold refs. apply Permutation_length. by rewrite Hp. Qed.
Lemma refs_ext e e' l o : (forall v, v ∈ l -> e v = e' v) -> refs e l o = refs e' l o.
Proof.
  induction l as [|v l IH]; intros He; [done|]. rewrite !refs_cons. rewrite He by left. rewrite IH; [done|]. intros w Hw. apply He. by right.
Qed.
Lemma refs_pos e l v o : v ∈ l -> e v = Some o -> 0 < refs e l o.
Proof. induction 1 as [v l|v w l Hv IH]; intros E; rewrite refs_cons; [rewrite decide_True by done; lia|]. specialize (IH E). lia. Qed.
Lemma occ_app x l l' : occ x (l ++ l') = occ x l + occ x l'.
Proof. unfold occ. by rewrite filter_app, app_length. Qed.
Lemma occ_cons x y l : occ x (y :: l) = (if decide (y = x) then 1 else 0) + occ x l.
Proof. unfold occ. rewrite filter_cons. by destruct (decide (y = x)). Qed.
Lemma occ_pos x l : x ∈ l <-> 0 < occ x l.
Proof.
  induction l as [|y l IH]; [split; [by intros ?%elem_of_nil|cbn; lia]|]. rewrite elem_of_cons, occ_cons, IH. destruct (decide (y = x)) as [->|Hn]; split; intros; try lia.
Qed.
Lemma occ_perm l l' : (forall x, occ x l = occ x l') -> l ≡ₚ l'.
Proof.
  revert l'; induction l as [|x l IH]; intros l' He.
  - destruct l' as [|y l']; [done|]. specialize (He y). rewrite occ_cons, decide_True in He by done. cbn in He. lia.
  - assert (x ∈ l') as Hx. { apply occ_pos. rewrite <- He, occ_cons, decide_True by done. lia. }
    apply elem_of_Permutation in Hx as (l2 & Hp). rewrite Hp. f_equiv. apply IH. intros y. specialize (He y).
    assert (occ y l' = occ y (x :: l2)) as E by (unfold occ; apply Permutation_length; by rewrite Hp). rewrite E, !occ_cons in He. lia.
Qed.
Lemma occ_NoDup x l : NoDup l -> occ x l = if decide (x ∈ l) then 1 else 0.
Proof.
  induction 1 as [|y l Hy Hl IH]; [by rewrite decide_False by apply not_elem_of_nil|]. rewrite occ_cons, IH. destruct (decide (y = x)) as [->|Hn].
  - rewrite decide_False by done. rewrite decide_True by left. done.
  - destruct (decide (x ∈ l)) as [Hx|Hx]; [rewrite decide_True by (by right)|rewrite decide_False; [done|]]; [done|]. intros [->|?]%elem_of_cons; done.
Qed.
Lemma occ_filter (P : nat -> Prop) `{!forall v, Decision (P v)} x l : occ x (filter P l) = if decide (P x) then occ x l else 0.
Proof.
  induction l as [|y l IH]; [by destruct (decide (P x))|]. rewrite filter_cons. destruct (decide (P y)) as [Hy|Hy]; rewrite ?occ_cons, IH; destruct (decide (y = x)) as [->|Hn]; destruct (decide (P x)); (done || lia).
Qed.
(** ** What the terminator hands out *)
Lemma occ_replicate x v k : occ x (replicate k v) = if decide (v = x) then k else 0.
Proof. induction k as [|k IH]; [by destruct (decide (v = x))|]. cbn [replicate]. rewrite occ_cons, IH. by destruct (decide (v = x)). Qed.
Lemma occ_dup x vs : forall seen, 2 * occ x (dup_incs seen vs) + occ x seen * (occ x seen - 1) = (occ x seen + occ x vs) * (occ x seen + occ x vs - 1).
Proof.
  induction vs as [|v vs IH]; intros seen; cbn [dup_incs]; [cbn; rewrite Nat.add_0_r; lia|].
  rewrite occ_app, occ_cons. specialize (IH (seen ++ [v])). rewrite occ_app in IH.
  assert (occ x [v] = if decide (v = x) then 1 else 0) as Ev by (rewrite occ_cons; by destruct (decide (v = x))). rewrite Ev in IH. clear Ev.
  rewrite occ_replicate. fold (occ v seen). destruct (decide (v = x)) as [->|Hn].
  - generalize dependent (occ x (dup_incs (seen ++ [x]) vs)). intros q IH. destruct (occ x seen) as [|s]; cbn in *; nia.
  - rewrite !Nat.add_0_r in IH. rewrite !Nat.add_0_l. lia.
Qed.
Lemma term_perm k ds vs : NoDup ds -> handed k ds vs -> filter (fun v => v ∈ vs) ds ++ term_incs k ds vs ≡ₚ vs.
Proof.
  intros Hd Hh. apply occ_perm. intros x. rewrite occ_app, occ_filter, occ_NoDup by done. destruct k; cbn [term_incs handed] in *.
  - rewrite occ_filter. destruct (decide (x ∈ ds)) as [Hx|Hx].
    + rewrite (decide_False (P := x ∉ ds)) by tauto. specialize (Hh x Hx). destruct (decide (x ∈ vs)) as [Hv|Hv]; [apply occ_pos in Hv; lia|]. rewrite occ_pos in Hv. lia.
    + rewrite (decide_True (P := x ∉ ds)) by done. by destruct (decide (x ∈ vs)).
  - pose proof (occ_dup x vs []) as E. change (occ x []) with 0 in E. cbn in E. destruct (decide (x ∈ vs)) as [Hv|Hv].
    + destruct (Hh x Hv) as [Hx Hle]. rewrite decide_True by done. apply occ_pos in Hv. destruct (occ x vs) as [|[|[|]]]; lia.
    + rewrite occ_pos in Hv. assert (occ x vs = 0) as E0 by lia. rewrite E0 in *. lia.
Qed.

Lemma elem_rev (v : nat) l : v ∈ rev l <-> v ∈ l.
Proof. by rewrite !elem_of_list_In, <- in_rev. Qed.

(** * Single steps *)
Lemma cnt_lookup h o : 0 < cnt h o -> exists n, h !! o = Some (S n) /\ cnt h o = S n.
Proof. unfold cnt. destruct (h !! o) as [[|n]|]; cbn; intros; try lia. eauto. Qed.
Lemma get_ok e h v o : e v = Some o -> 0 < cnt h o -> get e h v = Ok o.
Proof. intros E (n & Hn & _)%cnt_lookup. unfold get. by rewrite E, Hn. Qed.
Definition at_ (e : env) (v o : nat) : Prop := e v = Some o.
Lemma gets_ok e h vs : (forall v, v ∈ vs -> exists o, e v = Some o /\ 0 < cnt h o) -> exists os, gets e h vs = Ok os /\ Forall2 (at_ e) vs os.
Proof.
  induction vs as [|v vs IH]; intros Hv; [by exists []|]. destruct (Hv v) as (o & E & Ho); [left|]. destruct IH as (os & E' & HF); [intros w Hw; apply Hv; by right|].
  exists (o :: os). cbn [gets]. rewrite (get_ok _ _ _ _ E Ho). cbn [obind]. rewrite E'. cbn [obind]. split; [done|]. by constructor.
Qed.
Lemma refs_occ e vs os x : Forall2 (at_ e) vs os -> refs e vs x = occ x os.
Proof.
  induction 1 as [|v o vs os E HF IH]; [done|]. rewrite refs_cons, occ_cons, IH, E. f_equal. destruct (decide (o = x)) as [->|Hn]; [by rewrite decide_True|]. rewrite decide_False; [done|]. congruence.
Qed.
Lemma cnt_insert h o n x : o < length h -> cnt (<[o:=n]> h) x = if decide (o = x) then n else cnt h x.
Proof. intros Ho. unfold cnt. destruct (decide (o = x)) as [->|Hn]; [by rewrite list_lookup_insert|by rewrite list_lookup_insert_ne]. Qed.
Lemma cnt_snoc h n x : cnt (h ++ [n]) x = if decide (x = length h) then n else cnt h x.
Proof.
  unfold cnt. destruct (decide (x = length h)) as [->|Hn]; [by rewrite lookup_app_r, Nat.sub_diag by lia|]. destruct (decide (x < length h)) as [Hx|Hx].
  - by rewrite lookup_app_l.
  - rewrite !lookup_ge_None_2; [done| |]; rewrite ?app_length; cbn; lia.
Qed.
Lemma cnt_end h : cnt h (length h) = 0.
Proof. unfold cnt. by rewrite lookup_ge_None_2 by lia. Qed.
Lemma bump h o : 0 < cnt h o -> exists n, rd h o = Ok n /\ n = cnt h o /\ forall m, exists h', wr h o m = Ok h' /\ forall x, cnt h' x = if decide (o = x) then m else cnt h x.
Proof.
  intros (n & Hn & E)%cnt_lookup. exists (S n). split; [by apply rd_Ok|]. split; [done|]. intros m. assert (o < length h) as Ho by (by eapply lookup_lt_Some).
  exists (<[o:=m]> h). split; [by apply wr_Ok|]. intros x. by apply cnt_insert.
Qed.
Lemma inc_ok e h v o : e v = Some o -> 0 < cnt h o -> exists h', inc e h v = Ok h' /\ forall x, cnt h' x = cnt h x + (if decide (o = x) then 1 else 0).
Proof.
  intros E Ho. destruct (bump _ _ Ho) as (n & En & -> & Hw). destruct (Hw (cnt h o + 1)) as (h' & Ew & Hc). exists h'. unfold inc. rewrite (get_ok _ _ _ _ E Ho). cbn [obind]. rewrite En. cbn [obind].
  split; [done|]. intros x. rewrite Hc. destruct (decide (o = x)) as [->|]; lia.
Qed.
Lemma dec_ok e h v o : e v = Some o -> 0 < cnt h o -> exists h', dec e h v = Ok h' /\ forall x, cnt h x = cnt h' x + (if decide (o = x) then 1 else 0).
Proof.
  intros E Ho. destruct (bump _ _ Ho) as (n & En & -> & Hw). destruct (Hw (cnt h o - 1)) as (h' & Ew & Hc). exists h'. unfold dec. rewrite (get_ok _ _ _ _ E Ho). cbn [obind]. rewrite En. cbn [obind].
  split; [done|]. intros x. rewrite Hc. destruct (decide (o = x)) as [->|]; lia.
Qed.
Lemma binds_fresh vs : forall e os v, v ∉ vs -> binds e vs os v = e v.
Proof.
  induction vs as [|w vs IH]; intros e [|o os] v Hv; cbn [binds]; try done. rewrite not_elem_of_cons in Hv. destruct Hv as [Hne Hv]. rewrite IH by done. unfold bind1. by rewrite decide_False.
Qed.
Lemma binds_at vs : forall e os, NoDup vs -> length os = length vs -> Forall2 (at_ (binds e vs os)) vs os.
Proof.
  induction vs as [|w vs IH]; intros e [|o os] Hd Hl; try done. cbn [binds]. apply NoDup_cons in Hd as [Hw Hd]. constructor.
  - unfold at_. rewrite binds_fresh by done. unfold bind1. by rewrite decide_True.
  - apply IH; [done|]. cbn in Hl. lia.
Qed.
Lemma at_elem e vs os v : Forall2 (at_ e) vs os -> v ∈ vs -> exists o, e v = Some o.
Proof. induction 1 as [|w o vs os E HF IH]; [by intros ?%elem_of_nil|]. intros [->|Hv]%elem_of_cons; eauto. Qed.
Lemma kernel_results_ok os rs : forall h ch, (forall o, o ∈ os -> 0 < cnt h o) ->
  match kernel_results os rs h ch with
  | Ok (os', h', _) => length os' = length rs /\ forall x, cnt h' x = cnt h x + occ x os'
  | Throw => True
  | UB => False
  end.
Proof.
  induction rs as [|r rs IH]; intros h ch Ho; cbn [kernel_results].
  - split; [done|]. intros x. cbn. lia.
  - destruct ch as [|k ch]; [done|].
    assert (exists o h1, (match k with
                          | 0 => Ok (length h, h ++ [1])
                          | S k => match os !! k with Some o => let* n := rd h o in let* h := wr h o (n + 1) in Ok (o, h) | None => Ok (length h, h ++ [1]) end
                          end) = Ok (o, h1) /\ forall x, cnt h1 x = cnt h x + (if decide (o = x) then 1 else 0)) as (o & h1 & -> & Hc).
    { assert (exists o h1, Ok (length h, h ++ [1]) = Ok (o, h1) /\ forall x, cnt h1 x = cnt h x + (if decide (o = x) then 1 else 0)) as Hf.
      { exists (length h), (h ++ [1]). split; [done|]. intros x. rewrite cnt_snoc. destruct (decide (x = length h)) as [->|Hn]; [rewrite decide_True, cnt_end by done; lia|]. rewrite decide_False by congruence. lia. }
      destruct k as [|k]; [done|]. destruct (os !! k) as [o|] eqn:Ek; [|done]. assert (0 < cnt h o) as Hp by (apply Ho; by eapply elem_of_list_lookup_2).
      destruct (bump _ _ Hp) as (n & -> & -> & Hw). cbn [obind]. destruct (Hw (cnt h o + 1)) as (h1 & -> & Hc). cbn [obind]. exists o, h1. split; [done|].
      intros x. rewrite Hc. destruct (decide (o = x)) as [->|]; lia. }
    cbn [obind]. specialize (IH h1 ch). destruct (kernel_results os rs h1 ch) as [[[os' h'] ch']| |]; cbn [obind]; [|done|].
    + destruct IH as [Hl Hc']. { intros o' Ho'. rewrite Hc. specialize (Ho _ Ho'). lia. } split; [cbn; lia|]. intros x. rewrite Hc', Hc, occ_cons. lia.
    + apply IH. intros o' Ho'. rewrite Hc. specialize (Ho _ Ho'). lia.
Qed.

(** The recursive functions unfolded once *)
Section unfold.
  Context (fns : list func).
  Lemma run_S fuel c e h ch : run fns (S fuel) c e h ch =
        match c with
        | CRet vs => let* os := gets e h vs in Ok (os, h, ch)
        | CCons o c => let* (e, h, ch) := exec fns fuel o e h ch in run fns fuel c e h ch
        end.
  Proof. reflexivity. Qed.
  Lemma exec_S fuel o e h ch : exec fns (S fuel) o e h ch =
        match o with
        | OKernel rs args =>
            let* os := gets e h args in
            let* (os', h, ch) := kernel_results os rs h ch in Ok (binds e rs os', h, ch)
        | OCast r a => let* o := get e h a in Ok (bind1 e r o, h, ch)
        | OIf rs th el =>
            match ch with
            | [] => Throw
            | k :: ch => let* (os, h, ch) := run fns fuel (if decide (k = 0) then el else th) e h ch in Ok (binds e rs os, h, ch)
            end
        | OFor rs inits ps body =>
            let* os := gets e h inits in
            let* (os, h, ch) := loop_for fns fuel ps body e os h ch in Ok (binds e rs os, h, ch)
        | OWhile rs inits bps before aps after =>
            let* os := gets e h inits in
            let* (os, h, ch) := loop_while fns fuel bps before aps after e os h ch in Ok (binds e rs os, h, ch)
        | OCall f rs args =>
            let* os := gets e h args in
            match fns !! f with
            | Some fn => let* (os, h, ch) := run fns fuel (f_body fn) (binds noenv (f_params fn) os) h ch in Ok (binds e rs os, h, ch)
            | None => UB
            end
        | OInc v => let* h := inc e h v in Ok (e, h, ch)
        | ODec v => let* h := dec e h v in Ok (e, h, ch)
        end.
  Proof. reflexivity. Qed.
  Lemma loop_for_S fuel ps body e os h ch : loop_for fns (S fuel) ps body e os h ch =
        match ch with
        | [] => Throw
        | 0 :: ch => Ok (os, h, ch)
        | S _ :: ch => let* (os, h, ch) := run fns fuel body (binds e ps os) h ch in loop_for fns fuel ps body e os h ch
        end.
  Proof. reflexivity. Qed.
  Lemma loop_while_S fuel bps before aps after e os h ch : loop_while fns (S fuel) bps before aps after e os h ch =
        let* (os, h, ch) := run fns fuel before (binds e bps os) h ch in
        match ch with
        | [] => Throw
        | 0 :: ch => Ok (os, h, ch)
        | S _ :: ch => let* (os, h, ch) := run fns fuel after (binds e aps os) h ch in loop_while fns fuel bps before aps after e os h ch
        end.
  Proof. reflexivity. Qed.
End unfold.

Section run.
  Context (fns : list func) (nres : list nat) (Hfns : good_prog fns nres).
  Let sig := sig_of fns nres.
  Let mfns := map manage_func fns.
  Lemma run_incs vs : forall fuel c e h ch, (forall v, v ∈ vs -> exists o, e v = Some o /\ 0 < cnt h o) ->
    run mfns fuel (pre (map OInc vs) c) e h ch = Throw \/
    exists fuel' h', fuel' <= fuel /\ run mfns fuel (pre (map OInc vs) c) e h ch = run mfns fuel' c e h' ch /\ forall x, cnt h' x = cnt h x + refs e vs x.
  Proof.
    induction vs as [|v vs IH]; intros fuel c e h ch Hv; cbn [map pre].
    - right. exists fuel, h. split; [lia|]. split; [done|]. intros x. cbn. lia.
    - destruct fuel as [|[|fuel]]; [by left|by left|]. destruct (Hv v) as (o & E & Ho); [left|]. destruct (inc_ok _ _ _ _ E Ho) as (h1 & E1 & Hc).
      change (run mfns (S (S fuel)) (CCons (OInc v) (pre (map OInc vs) c)) e h ch) with
        (let* (e, h, ch) := (let* h := inc e h v in Ok (e, h, ch)) in run mfns (S fuel) (pre (map OInc vs) c) e h ch).
      rewrite E1. cbn [obind]. destruct (IH (S fuel) c e h1 ch) as [->|(f' & h' & Hf & -> & Hc')].
      + intros w Hw. destruct (Hv w) as (o' & E' & Ho'); [by right|]. exists o'. split; [done|]. rewrite Hc. lia.
      + by left.
      + right. exists f', h'. split; [lia|]. split; [done|]. intros x. rewrite Hc', Hc, refs_cons, E.
        destruct (decide (o = x)) as [->|Hn]; [rewrite decide_True by done; lia|]. rewrite decide_False by congruence. lia.
  Qed.
  Lemma run_decs vs : forall fuel c e h ch ext, (forall v, v ∈ vs -> exists o, e v = Some o) -> (forall x, cnt h x = ext x + refs e vs x) ->
    run mfns fuel (pre (map ODec vs) c) e h ch = Throw \/
    exists fuel' h', fuel' <= fuel /\ run mfns fuel (pre (map ODec vs) c) e h ch = run mfns fuel' c e h' ch /\ forall x, cnt h' x = ext x.
  Proof.
    induction vs as [|v vs IH]; intros fuel c e h ch ext Hv Hc; cbn [map pre].
    - right. exists fuel, h. split; [lia|]. split; [done|]. intros x. rewrite Hc. cbn. lia.
    - destruct fuel as [|[|fuel]]; [by left|by left|]. destruct (Hv v) as (o & E); [left|].
      destruct (dec_ok e h v o E) as (h1 & E1 & Hd). { rewrite Hc, refs_cons, decide_True by done. lia. }
      change (run mfns (S (S fuel)) (CCons (ODec v) (pre (map ODec vs) c)) e h ch) with
        (let* (e, h, ch) := (let* h := dec e h v in Ok (e, h, ch)) in run mfns (S fuel) (pre (map ODec vs) c) e h ch).
      rewrite E1. cbn [obind]. destruct (IH (S fuel) c e h1 ch ext) as [->|(f' & h' & Hf & -> & Hc')].
      + intros w Hw. apply Hv. by right.
      + intros x. specialize (Hd x). rewrite Hc, refs_cons, E in Hd. destruct (decide (o = x)) as [->|Hn]; [rewrite decide_True in Hd by done; lia|].
        rewrite decide_False in Hd by congruence. lia.
      + by left.
      + right. exists f', h'. split; [lia|]. done.
  Qed.

  Definition good (r : outcome (list nat * heap * list nat)) (ext : nat -> nat) (n : nat) : Prop :=
    match r with
    | Ok (os, h, _) => length os = n /\ forall x, cnt h x = ext x + occ x os
    | Throw => True
    | UB => False
    end.
  Definition good_op (r : outcome (env * heap * list nat)) (ext : nat -> nat) (e : env) (rs : list nat) : Prop :=
    match r with
    | Ok (e', h, _) => exists os, e' = binds e rs os /\ length os = length rs /\ forall x, cnt h x = ext x + occ x os
    | Throw => True
    | UB => False
    end.
  (** The values used later are bound to objects that are kept alive, by this block or by the surroundings *)
  Definition kept (e : env) (ext : nat -> nat) (sc : list nat) (P : nat -> bool) : Prop :=
    forall v, v ∈ sc -> P v = true -> exists o, e v = Some o /\ 0 < ext o.
  Definition Prun (fuel : nat) : Prop := forall k sc ds c n e h ch ext, NoDup ds -> ssa sig sc ds c n -> tidy k ds c ->
    (forall v, v ∈ ds -> exists o, e v = Some o) -> kept e ext sc (fun v => uses v c) ->
    (forall x, cnt h x = ext x + refs e (filter (fun v => uses v c = true) ds) x) ->
    good (run mfns fuel (manage k ds c) e h ch) ext n.

  Lemma block_ok fuel : (forall f, f <= fuel -> Prun f) -> forall sc ps c n e h ch os ext, fresh ps sc -> ssa sig sc ps c n -> tidy KOther ps c -> length os = length ps ->
    kept e ext sc (fun v => uses v c) -> (forall x, cnt h x = ext x + occ x os) -> good (run mfns fuel (manage_block ps c) (binds e ps os) h ch) ext n.
  Proof.
    intros HP sc ps c n e h ch os ext [Hnd Hfr] Hs Ht Hl Hk Hc. unfold manage_block. pose proof (binds_at ps e os Hnd Hl) as HF.
    destruct (run_decs (rev (filter (fun v => uses v c = false) ps)) fuel (manage KOther ps c) (binds e ps os) h ch (fun x => ext x + refs (binds e ps os) (filter (fun v => uses v c = true) ps) x)) as [->|(f' & h' & Hf & -> & Hc')].
    - intros v Hv. rewrite elem_rev in Hv. apply elem_of_list_filter in Hv as [_ Hv]. by eapply at_elem.
    - intros x. rewrite Hc. rewrite (refs_perm _ (rev _) (filter (fun v => uses v c = false) ps)) by (by rewrite <- Permutation_rev).
      rewrite <- (refs_occ _ _ _ x HF). rewrite <- Nat.add_assoc. f_equal. rewrite <- refs_app. apply refs_perm. apply occ_perm. intros y. rewrite occ_app, !occ_filter. destruct (uses y c) eqn:E.
      + rewrite decide_True by done. rewrite decide_False by done. lia.
      + rewrite decide_False by done. rewrite decide_True by done. lia.
    - done.
    - eapply HP; try done.
      + intros v Hv. by eapply at_elem.
      + intros v Hv Hu. destruct (Hk v Hv Hu) as (o & E & Ho). exists o. split; [|done]. rewrite binds_fresh; [done|]. intros Hp. by eapply Hfr.
  Qed.

  Lemma loop_for_ok fuel : (forall f, f < fuel -> Prun f) -> forall sc ps c e h ch os ext, fresh ps sc -> ssa sig sc ps c (length ps) -> tidy KOther ps c -> length os = length ps ->
    kept e ext sc (fun v => uses v c) -> (forall x, cnt h x = ext x + occ x os) -> good (loop_for mfns fuel ps (manage_block ps c) e os h ch) ext (length ps).
  Proof.
    induction fuel as [|fuel IH]; intros HP sc ps c e h ch os ext Hfr Hs Ht Hl Hk Hc; [done|]. rewrite loop_for_S. destruct ch as [|[|k] ch]; [done|done|].
    pose proof (block_ok fuel (fun f Hf => HP f ltac:(lia)) sc ps c (length ps) e h ch os ext Hfr Hs Ht Hl Hk Hc) as Hb.
    destruct (run mfns fuel (manage_block ps c) (binds e ps os) h ch) as [[[os' h'] ch']| |]; cbn [obind]; [|exact I|exact Hb]. destruct Hb as [Hl' Hc'].
    apply (IH (fun f Hf => HP f ltac:(lia)) sc); done.
  Qed.
  Lemma loop_while_ok fuel : (forall f, f < fuel -> Prun f) -> forall sc bps before aps after e h ch os ext, fresh bps sc -> fresh aps sc ->
    ssa sig sc bps before (length aps) -> ssa sig sc aps after (length bps) -> tidy KOther bps before -> tidy KOther aps after -> length os = length bps ->
    kept e ext sc (fun v => uses v before || uses v after) -> (forall x, cnt h x = ext x + occ x os) ->
    good (loop_while mfns fuel bps (manage_block bps before) aps (manage_block aps after) e os h ch) ext (length aps).
  Proof.
    induction fuel as [|fuel IH]; intros HP sc bps before aps after e h ch os ext Hf1 Hf2 Hs1 Hs2 Ht1 Ht2 Hl Hk Hc; [done|]. rewrite loop_while_S.
    assert (kept e ext sc (fun v => uses v before)) as Hk1. { intros v Hv Hu. apply Hk; [done|]. by rewrite Hu. }
    assert (kept e ext sc (fun v => uses v after)) as Hk2. { intros v Hv Hu. apply Hk; [done|]. rewrite Hu. by destruct (uses v before). }
    pose proof (block_ok fuel (fun f Hf => HP f ltac:(lia)) sc bps before _ e h ch os ext Hf1 Hs1 Ht1 Hl Hk1 Hc) as Hb.
    destruct (run mfns fuel (manage_block bps before) (binds e bps os) h ch) as [[[os1 h1] ch1]| |]; cbn [obind]; [|done|exact Hb]. destruct Hb as [Hl1 Hc1].
    destruct ch1 as [|[|k] ch1]; [done|done|].
    pose proof (block_ok fuel (fun f Hf => HP f ltac:(lia)) sc aps after _ e h1 ch1 os1 ext Hf2 Hs2 Ht2 Hl1 Hk2 Hc1) as Hb2.
    destruct (run mfns fuel (manage_block aps after) (binds e aps os1) h1 ch1) as [[[os2 h2] ch2]| |]; cbn [obind]; [|done|exact Hb2]. destruct Hb2 as [Hl2 Hc2].
    apply (IH (fun f Hf => HP f ltac:(lia)) sc); done.
  Qed.
  Lemma kept_gets e h ext sc P vs : kept e ext sc P -> vs ⊆ sc -> (forall v, v ∈ vs -> P v = true) -> (forall x, ext x <= cnt h x) ->
    exists os, gets e h vs = Ok os /\ Forall2 (at_ e) vs os /\ forall o, o ∈ os -> 0 < cnt h o.
  Proof.
    intros Hk Hs HP He. assert (forall v, v ∈ vs -> exists o, e v = Some o /\ 0 < cnt h o) as Hv.
    { intros v Hv. destruct (Hk v (Hs v Hv) (HP v Hv)) as (o & E & Ho). exists o. split; [done|]. specialize (He o). lia. }
    destruct (gets_ok e h vs Hv) as (os & E & HF). exists os. split; [done|]. split; [done|]. intros o Ho. apply elem_of_list_lookup in Ho as (i & Hi).
    destruct (Forall2_lookup_r _ _ _ _ _ HF Hi) as (v & Hvi & Eo). destruct (Hv v) as (o' & E' & Hp); [by eapply elem_of_list_lookup_2|]. unfold at_ in Eo. congruence.
  Qed.
  Lemma exec_ok fuel : (forall f, f < fuel -> Prun f) -> forall sc o e h ch ext, ssa_op sig sc o -> tidy_op o -> kept e ext sc (fun v => uses_op v o) ->
    (forall x, cnt h x = ext x + refs e (inc_args o) x) -> good_op (exec mfns fuel (manage_op o) e h ch) ext e (results o).
  Proof.
    intros HP sc o e h ch ext Hs Ht Hk Hc. destruct fuel as [|fuel]; [done|].
    assert (forall x, ext x <= cnt h x) as He by (intros x; rewrite Hc; lia).
    destruct o as [rs args|r a|rs th el|rs inits ps body|rs inits bps before aps after|f rs args|v|v]; rewrite exec_S; cbn [manage_op results inc_args ssa_op tidy_op] in *.
    - destruct Hs as [Hf Ha]. destruct (kept_gets _ h _ _ _ _ Hk Ha) as (os & -> & HF & Ho); [|done|].
      { intros v Hv. cbn. by apply bool_decide_eq_true. }
      cbn [obind]. pose proof (kernel_results_ok os rs h ch Ho) as Hr. destruct (kernel_results os rs h ch) as [[[os' h'] ch']| |]; cbn [obind]; [|done|exact Hr].
      destruct Hr as [Hl Hc']. exists os'. split; [done|]. split; [done|]. intros x. rewrite Hc', Hc. cbn. lia.
    - destruct Hs as [Hr Ha]. destruct (Hk a Ha) as (o & E & Ho). { cbn. by apply bool_decide_eq_true. }
      rewrite (get_ok e h a o E) by (specialize (He o); lia). cbn [obind]. exists [o]. split; [done|]. split; [done|]. intros x. rewrite Hc, refs_cons, occ_cons, E. cbn.
      destruct (decide (o = x)) as [->|Hn]; [by rewrite decide_True|]. rewrite decide_False by congruence. done.
    - destruct Hs as (Hf & H1 & H2). destruct Ht as [T1 T2]. destruct ch as [|k ch]; [done|].
      assert (good (run mfns fuel (if decide (k = 0) then manage KIf [] el else manage KIf [] th) e h ch) ext (length rs)) as Hg.
      { destruct (decide (k = 0)); (eapply HP; [lia| |done|done| | |]).
        all: try apply NoDup_nil_2. all: try (by intros ? ?%elem_of_nil). all: try exact Hc.
        - intros v Hv Hu. apply Hk; [done|]. cbn. rewrite Hu. by destruct (uses v th).
        - intros v Hv Hu. apply Hk; [done|]. cbn. by rewrite Hu. }
      destruct (run mfns fuel (if decide (k = 0) then manage KIf [] el else manage KIf [] th) e h ch) as [[[os' h'] ch']| |]; cbn [obind]; [|done|exact Hg].
      destruct Hg as [Hl Hc']. by exists os'.
    - destruct Hs as (Hf & Hi & Hl & Hlp & Hfp & Hb). destruct (kept_gets _ h _ _ _ _ Hk Hi) as (os & -> & HF & Ho); [|done|].
      { intros v Hv. cbn. by rewrite bool_decide_eq_true_2. }
      cbn [obind]. rewrite <- Hlp in *. fold (manage_block ps body).
      assert (good (loop_for mfns fuel ps (manage_block ps body) e os h ch) ext (length ps)) as Hg.
      { apply (loop_for_ok fuel (fun f Hf => HP f ltac:(lia)) sc); try done.
        - apply Forall2_length in HF. lia.
        - intros v Hv Hu. apply Hk; [done|]. cbn. rewrite Hu. by destruct (bool_decide _).
        - intros x. by rewrite Hc, (refs_occ _ _ _ _ HF). }
      destruct (loop_for mfns fuel ps (manage_block ps body) e os h ch) as [[[os' h'] ch']| |]; cbn [obind]; [|done|exact Hg].
      destruct Hg as [Hl' Hc']. exists os'. split; [done|]. split; [lia|done].
    - destruct Hs as (Hf & Hi & Hl & Hla & Hfb & Hfa & Hb & Ha). destruct Ht as [T1 T2]. destruct (kept_gets _ h _ _ _ _ Hk Hi) as (os & -> & HF & Ho); [|done|].
      { intros v Hv. cbn. by rewrite bool_decide_eq_true_2. }
      cbn [obind]. rewrite <- Hla in *. fold (manage_block bps before). fold (manage_block aps after).
      assert (good (loop_while mfns fuel bps (manage_block bps before) aps (manage_block aps after) e os h ch) ext (length aps)) as Hg.
      { apply (loop_while_ok fuel (fun f Hf => HP f ltac:(lia)) sc); try done.
        - apply Forall2_length in HF. lia.
        - intros v Hv Hu. apply Hk; [done|]. cbn. apply orb_true_iff in Hu as [-> | ->]; destruct (bool_decide (v ∈ inits)); cbn; try done. by destruct (uses v before).
        - intros x. by rewrite Hc, (refs_occ _ _ _ _ HF). }
      destruct (loop_while mfns fuel bps (manage_block bps before) aps (manage_block aps after) e os h ch) as [[[os' h'] ch']| |]; cbn [obind]; [|done|exact Hg].
      destruct Hg as [Hl' Hc']. exists os'. split; [done|]. split; [lia|done].
    - destruct Hs as (Hf & Ha & Hsig). destruct (kept_gets _ h _ _ _ _ Hk Ha) as (os & -> & HF & Ho); [|done|].
      { intros v Hv. cbn. by apply bool_decide_eq_true. }
      cbn [obind]. unfold sig, sig_of in Hsig. destruct (fns !! f) as [fn|] eqn:Ef; [|done]. cbn in Hsig. destruct (nres !! f) as [nr|] eqn:En; [|done]. cbn in Hsig. injection Hsig as Hlp Hnr.
      destruct (Forall2_lookup_lr _ _ _ _ _ _ Hfns Ef En) as (Hnd & Hss & Htt).
      assert (mfns !! f = Some (manage_func fn)) as -> by (unfold mfns; by rewrite list_lookup_fmap, Ef). cbn [manage_func f_params f_body].
      assert (good (run mfns fuel (manage_block (f_params fn) (f_body fn)) (binds noenv (f_params fn) os) h ch) ext (length rs)) as Hg.
      { apply (block_ok fuel (fun f Hf => HP f ltac:(lia)) []); try done.
        - split; [done|]. intros v _. apply not_elem_of_nil.
        - by rewrite <- Hnr.
        - apply Forall2_length in HF. lia.
        - by intros v ?%elem_of_nil.
        - intros x. by rewrite Hc, (refs_occ _ _ _ _ HF). }
      destruct (run mfns fuel (manage_block (f_params fn) (f_body fn)) (binds noenv (f_params fn) os) h ch) as [[[os' h'] ch']| |]; cbn [obind]; [|done|exact Hg].
      destruct Hg as [Hl' Hc']. by exists os'.
    - done.
    - done.
  Qed.
  Lemma run_ok fuel : Prun fuel.
  Proof.
    induction fuel as [fuel HP] using lt_wf_ind. intros k sc ds c n e h ch ext Hnd Hs Ht Hb Hk Hc. destruct c as [vs|o c]; cbn [manage ssa tidy] in *.
    - destruct Hs as [Hl Hvs]. pose proof (term_perm k ds vs Hnd Ht) as Hp.
      assert (forall v, v ∈ vs -> exists o, e v = Some o /\ 0 < cnt h o) as Hv.
      { intros v Hv. specialize (Hvs v Hv). apply elem_of_app in Hvs as [Hsc|Hds].
        - destruct (Hk v Hsc) as (o & E & Ho). { cbn. by apply bool_decide_eq_true. } exists o. split; [done|]. rewrite Hc. lia.
        - destruct (Hb v Hds) as (o & E). exists o. split; [done|]. rewrite Hc.
          assert (0 < refs e (filter (fun v => uses v (CRet vs) = true) ds) o); [|lia]. eapply refs_pos; [|done]. apply elem_of_list_filter. split; [|done]. cbn. by apply bool_decide_eq_true. }
      destruct (run_incs (term_incs k ds vs) fuel (CRet vs) e h ch) as [->|(f' & h' & Hf & -> & Hc')].
      + intros v Hv'. apply Hv. rewrite <- Hp. apply elem_of_app. by right.
      + done.
      + destruct f' as [|f']; [done|]. rewrite run_S.
        destruct (gets_ok e h' vs) as (os & -> & HF). { intros v Hv'. destruct (Hv v Hv') as (o & E & Ho). exists o. split; [done|]. rewrite Hc'. lia. }
        cbn [obind good]. split; [apply Forall2_length in HF; lia|]. intros x. rewrite Hc', Hc, <- Nat.add_assoc, <- refs_app. f_equal. rewrite <- (refs_occ _ _ _ x HF). apply refs_perm.
        etrans; [|exact Hp]. f_equiv. assert (filter (fun v => uses v (CRet vs) = true) ds = filter (fun v => v ∈ vs) ds) as ->; [|done]. apply list_filter_iff. intros v. cbn. by rewrite bool_decide_eq_true.
    - destruct Hs as [Hso Hsc]. destruct Ht as [Hto Htc].
      assert (fresh (results o) (sc ++ ds)) as [Hrn Hrf].
      { destruct o; cbn in Hso |- *; try (by destruct Hso); try tauto. destruct Hso as [Hr _]. split; [apply NoDup_singleton|]. by intros v ->%elem_of_list_singleton. }
      set (ext1 := fun x => ext x + refs e (filter (fun v => uses v (CCons o c) = true) ds) x).
      assert (kept e ext1 (sc ++ ds) (fun v => uses_op v o)) as Hk1.
      { intros v [Hv|Hv]%elem_of_app Hu.
        - destruct (Hk v Hv) as (ob & E & Ho). { cbn. by rewrite Hu. } exists ob. split; [done|]. unfold ext1. lia.
        - destruct (Hb v Hv) as (ob & E). exists ob. split; [done|]. unfold ext1.
          assert (0 < refs e (filter (fun v => uses v (CCons o c) = true) ds) ob); [|lia]. eapply refs_pos; [|done]. apply elem_of_list_filter. split; [|done]. cbn. by rewrite Hu. }
      destruct (run_incs (inc_args o) fuel (CCons (manage_op o) (pre (map ODec (decs ds o c)) (manage k (ds ++ results o) c))) e h ch) as [->|(f' & h' & Hf & -> & Hc')].
      { intros v Hv. assert (v ∈ sc ++ ds /\ uses_op v o = true) as [Hin Hu].
        { destruct o; cbn in Hv, Hso |- *; try (by apply elem_of_nil in Hv).
          - apply elem_of_list_singleton in Hv as ->. split; [tauto|]. by apply bool_decide_eq_true.
          - destruct Hso as (_ & Hi & _). split; [by apply Hi|]. by rewrite bool_decide_eq_true_2.
          - destruct Hso as (_ & Hi & _). split; [by apply Hi|]. by rewrite bool_decide_eq_true_2.
          - destruct Hso as (_ & Hi & _). split; [by apply Hi|]. by rewrite bool_decide_eq_true_2. }
        destruct (Hk1 v Hin Hu) as (ob & E & Ho). exists ob. split; [done|]. rewrite Hc. done. }
      { done. }
      destruct f' as [|f']; [done|]. rewrite run_S.
      pose proof (exec_ok f' (fun f Hf' => HP f ltac:(lia)) (sc ++ ds) o e h' ch ext1 Hso Hto Hk1) as He. feed specialize He. { intros x. by rewrite Hc', Hc. }
      destruct (exec mfns f' (manage_op o) e h' ch) as [[[e2 h2] ch2]| |]; cbn [obind]; [|done|exact He].
      destruct He as (os & -> & Hlo & Hc2).
      assert (forall v, v ∈ sc ++ ds -> binds e (results o) os v = e v) as Hsame. { intros v Hv. apply binds_fresh. intros Hr. by apply (Hrf v). }
      pose proof (binds_at _ e os Hrn Hlo) as HF.
      assert (forall v, v ∈ ds ++ results o -> exists ob, binds e (results o) os v = Some ob) as Hb2.
      { intros v [Hv|Hv]%elem_of_app; [rewrite Hsame by (apply elem_of_app; by right); by apply Hb|by eapply at_elem]. }
      destruct (run_decs (decs ds o c) f' (manage k (ds ++ results o) c) (binds e (results o) os) h2 ch2 (fun x => ext x + refs (binds e (results o) os) (filter (fun v => uses v c = true) (ds ++ results o)) x)) as [->|(f3 & h3 & Hf3 & -> & Hc3)].
      + intros v Hv. unfold decs in Hv. rewrite elem_rev in Hv. apply elem_of_list_filter in Hv as [_ Hv]. by apply Hb2.
      + intros x. rewrite Hc2. unfold ext1. rewrite <- (refs_occ _ _ _ x HF), <- !Nat.add_assoc. f_equal.
        rewrite (refs_ext e (binds e (results o) os)). 2:{ intros v [_ Hv]%elem_of_list_filter. symmetry. apply Hsame. apply elem_of_app. by right. }
        rewrite <- !refs_app. apply refs_perm. apply occ_perm. intros y. unfold decs.
        assert (forall l, occ y (rev l) = occ y l) as Hrev. { intros l. unfold occ. apply Permutation_length. by rewrite <- Permutation_rev. }
        rewrite !occ_app, Hrev, !occ_filter, !occ_app. cbn [uses].
        assert (y ∈ results o -> occ y ds = 0) as Hz. { intros Hr. destruct (decide (y ∈ ds)) as [Hd|Hd]; [|rewrite occ_pos in Hd; lia]. exfalso. apply (Hrf y Hr). apply elem_of_app. by right. }
        assert (y ∉ results o -> occ y (results o) = 0) as Hz2. { intros Hr. rewrite occ_pos in Hr. lia. }
        destruct (uses y c) eqn:Eu, (uses_op y o) eqn:Eo; cbn [orb]; destruct (decide (y ∈ results o)) as [Hr|Hr]; repeat case_decide; try specialize (Hz Hr); try specialize (Hz2 Hr); try lia; exfalso; intuition congruence.
      + done.
      + eapply HP; [lia| | | |done| |done].
        * apply NoDup_app. split; [done|]. split; [|done]. intros v Hv Hr. apply (Hrf v Hr). apply elem_of_app. by right.
        * done.
        * done.
        * intros v Hv Hu. rewrite Hsame by (apply elem_of_app; by left). apply Hk; [done|]. cbn. rewrite Hu. by destruct (uses_op v o).
  Qed.
End run.

(** * Theorems *)
(** A function of a program processed by the pass, called with objects [os] (one reference each) while the surroundings hold [ext o]
    references to object [o]: whatever choices are made and however long it runs, no destroyed object is used or destroyed again, and when
    it returns, it has added exactly the references it returns and consumed those it got. *)
Theorem C53_function fns nres f fn n fuel os h ch ext : good_prog fns nres -> fns !! f = Some fn -> nres !! f = Some n -> length os = length (f_params fn) -> (forall o, cnt h o = ext o + occ o os) ->
  match run (map manage_func fns) fuel (f_body (manage_func fn)) (binds noenv (f_params fn) os) h ch with
  | Ok (os', h', _) => length os' = n /\ forall o, cnt h' o = ext o + occ o os'
  | Throw => True
  | UB => False
  end.
Proof.
  intros Hg Ef En Hl Hc. destruct (Forall2_lookup_lr _ _ _ _ _ _ Hg Ef En) as (Hnd & Hss & Htt). cbn [manage_func f_body].
  apply (block_ok fns nres fuel (fun f _ => run_ok fns nres Hg f) []); try done.
  - split; [done|]. intros v _. apply not_elem_of_nil.
  - by intros v ?%elem_of_nil.
Qed.
(** The main function: no use of a destroyed object, no second destruction *)
Theorem C53_safe fns nres main n fuel ch : good_prog fns nres -> fns !! 0 = Some main -> nres !! 0 = Some n -> f_params main = [] ->
  run (map manage_func fns) fuel (f_body (manage_func main)) noenv [] ch <> UB.
Proof.
  intros Hg Ef En Hp E. pose proof (C53_function fns nres 0 main n fuel [] [] ch (fun _ => 0) Hg Ef En) as H. rewrite Hp in H. cbn [binds] in H. rewrite E in H. apply H; [done|]. intros o. by unfold cnt.
Qed.
(** ... and no leak: in the end exactly the returned objects are left, with one reference for each time they are returned *)
Theorem C53_no_leak fns nres main n fuel ch os h ch' : good_prog fns nres -> fns !! 0 = Some main -> nres !! 0 = Some n -> f_params main = [] ->
  run (map manage_func fns) fuel (f_body (manage_func main)) noenv [] ch = Ok (os, h, ch') -> forall o, cnt h o = occ o os.
Proof.
  intros Hg Ef En Hp E. pose proof (C53_function fns nres 0 main n fuel [] [] ch (fun _ => 0) Hg Ef En) as H. rewrite Hp in H. cbn [binds] in H. rewrite E in H. apply H; [done|]. intros o. by unfold cnt.
Qed.
Theorem C53_all_destroyed fns main nres fuel ch os h ch' : good_prog fns nres -> fns !! 0 = Some main -> nres !! 0 = Some 0 -> f_params main = [] ->
  run (map manage_func fns) fuel (f_body (manage_func main)) noenv [] ch = Ok (os, h, ch') -> Forall (fun k => k = 0) h.
Proof.
  intros Hg Ef En Hp E. pose proof (C53_function fns nres 0 main 0 fuel [] [] ch (fun _ => 0) Hg Ef En) as H. rewrite Hp in H. cbn [binds] in H. rewrite E in H.
  destruct H as [Hl Hc]; [done|intros o; by unfold cnt|]. apply Forall_lookup. intros i k Hi. specialize (Hc i). unfold cnt in Hc. rewrite Hi in Hc. destruct os; [|done]. cbn in Hc. lia.
Qed.

(** * What does not hold: programs in SSA form for which the inserted operations are wrong *)
Local Ltac solve_ssa :=
  repeat match goal with
  | |- _ /\ _ => split
  | |- fresh _ _ => split
  | |- NoDup _ => apply (bool_decide_eq_true_1 _); vm_compute; reflexivity
  | |- _ ⊆ _ => intros ?v ?Hv
  | |- forall v, v ∈ _ -> _ => intros ?v ?Hv
  | |- _ = _ => reflexivity
  | |- True => exact I
  | Hv : ?v ∈ _ |- occ ?v _ <= _ => rewrite elem_of_list_In in Hv; cbn in Hv; repeat destruct Hv as [<-|Hv]; try contradiction; vm_compute; lia
  | |- _ => progress cbn in *
  | |- _ => rewrite ?elem_of_list_In in *; cbn in *; intuition (subst; try (vm_compute; lia); cbn in *; try lia)
  end.
(** A branch hands out one of its own values twice (x = A + B; y = x; inside an if): the object is destroyed twice. *)
Definition bad_if : func := mkF [] (CCons (OIf [1; 2] (CCons (OKernel [3] []) (CRet [3; 3])) (CCons (OKernel [4] []) (CRet [4; 4]))) (CRet [])).
Theorem C53_if_twice_refuted : ssa (sig_of [bad_if] [0]) [] [] (f_body bad_if) 0 /\ run (map manage_func [bad_if]) 20 (f_body (manage_func bad_if)) noenv [] [1; 0] = UB.
Proof.
  split; [|reflexivity]. solve_ssa.
Qed.
(** A loop hands out a value from before the loop (x = A; inside a for): the object is destroyed while it is used. *)
Definition bad_for : func := mkF [] (CCons (OKernel [1] []) (CCons (OKernel [2] []) (CCons (OFor [3] [2] [4] (CRet [1])) (CRet [])))).
Theorem C53_for_outer_refuted : ssa (sig_of [bad_for] [0]) [] [] (f_body bad_for) 0 /\ run (map manage_func [bad_for]) 20 (f_body (manage_func bad_for)) noenv [] [0; 0; 1; 0] = UB /\
  run (map manage_func [bad_for]) 20 (f_body (manage_func bad_for)) noenv [] [0; 0; 1; 1; 0] = UB.
Proof.
  split; [|done]. solve_ssa.
Qed.
(** A function returns a value three times: it is never destroyed. *)
Definition bad_ret : func := mkF [] (CCons (OKernel [1] []) (CRet [1; 1; 1])).
Theorem C53_return_thrice_refuted : ssa (sig_of [bad_ret] [3]) [] [] (f_body bad_ret) 3 /\ exists h, run (map manage_func [bad_ret]) 20 (f_body (manage_func bad_ret)) noenv [] [0] = Ok ([0; 0; 0], h, []) /\ cnt h 0 = 4.
Proof.
  split; [|by eexists]. solve_ssa.
Qed.

(** * The theorems apply *)
Definition ex_main : func := mkF [] (CCons (OKernel [1] []) (CCons (OKernel [2] [1]) (CCons (OFor [3] [2] [4] (CCons (OKernel [5] [4; 1]) (CRet [5])))
  (CCons (OIf [6] (CRet [3]) (CCons (OCast 7 1) (CRet [7]))) (CCons (OCall 1 [8; 9] [6]) (CCons (OKernel [] [8; 9]) (CRet []))))))).
Definition ex_fn : func := mkF [1] (CRet [1; 1]).
Example C53_ex_good : good_prog [ex_main; ex_fn] [0; 2].
Proof. constructor; [|constructor; [|constructor]]; unfold good_func; solve_ssa. Qed.
Example C53_ex_run : exists h, run (map manage_func [ex_main; ex_fn]) 30 (f_body (manage_func ex_main)) noenv [] [0; 0; 1; 0; 1; 2; 0; 0] = Ok ([], h, []) /\ h = [0; 0; 0].
Proof. eexists. split; reflexivity. Qed.

Print Assumptions C53_function. Print Assumptions C53_safe. Print Assumptions C53_no_leak. Print Assumptions C53_all_destroyed.
Print Assumptions C53_if_twice_refuted. Print Assumptions C53_for_outer_refuted. Print Assumptions C53_return_thrice_refuted.
