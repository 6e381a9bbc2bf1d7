(** Property C19: reference counting of strings. *)
From stdpp Require Import base numbers gmap list.
From Coq Require Import Lia.
From Verif Require Import CppBase UtilModel.

(** A history: a string is allocated at an address (with one reference), references are added and given up.
    A decrement is recorded with the answer of the counter ([true] = still needed, [false] = free the string). *)
Inductive sevent := Alloc (p : N) | Inc (p : N) | Dec (p : N) (kept : bool).
(** How many references there are after a history: independent of the counter class. *)
Definition refs1 (e : sevent) (p : N) (n : nat) : nat :=
  match e with
  | Alloc q => if decide (q = p) then 1 else n
  | Inc q => if decide (q = p) then n + 1 else n
  | Dec q _ => if decide (q = p) then n - 1 else n
  end.
Definition refs (h : list sevent) (p : N) : nat := foldl (fun n e => refs1 e p n) 0 h.
(** Clients only touch strings they have a reference to; memory is only reused after the last reference was given up. *)
Fixpoint well_behaved (pre h : list sevent) : Prop :=
  match h with
  | [] => True
  | e :: h' => match e with Alloc p => refs pre p = 0 | Inc p | Dec p _ => 0 < refs pre p end /\ well_behaved (pre ++ [e]) h'
  end.
(** The counter produces this history. (An allocation does not touch the counter.) *)
Fixpoint produces (m : gmap N nat) (h : list sevent) (m' : gmap N nat) : Prop :=
  match h with
  | [] => m' = m
  | Alloc p :: h' => produces m h' m'
  | Inc p :: h' => produces (src_inc m p) h' m'
  | Dec p kept :: h' => snd (src_dec m p) = kept /\ produces (fst (src_dec m p)) h' m'
  end.

Lemma refs_snoc h e p : refs (h ++ [e]) p = refs1 e p (refs h p).
Proof. unfold refs. by rewrite foldl_app. Qed.

(** The counter's invariant: an absent entry stands for at most one reference, a present entry is the number of references. *)
Definition counts (m : gmap N nat) (n : N -> nat) : Prop :=
  forall p, match m !! p with Some k => k = n p /\ 0 < k | None => n p <= 1 end.
Lemma counts_step m h e : counts m (refs h) ->
  (match e with Alloc p => refs h p = 0 | Inc p | Dec p _ => 0 < refs h p end) ->
  match e with
  | Alloc p => counts m (refs (h ++ [e]))
  | Inc p => counts (src_inc m p) (refs (h ++ [e]))
  | Dec p _ => counts (fst (src_dec m p)) (refs (h ++ [e])) /\ (snd (src_dec m p) = false <-> refs h p = 1)
  end.
Proof.
  intros Hc Hw. destruct e as [p|p|p kept].
  - intros q. rewrite refs_snoc. unfold refs1. specialize (Hc q). case_decide as Hq; [subst|done]. destruct (m !! q); lia.
  - intros q. rewrite refs_snoc. unfold refs1, src_inc. pose proof (Hc p) as Hp. specialize (Hc q). destruct (m !! p) as [k|] eqn:E; case_decide as Hq.
    + subst. rewrite lookup_insert. lia.
    + by rewrite lookup_insert_ne.
    + subst. rewrite lookup_insert. lia.
    + by rewrite lookup_insert_ne.
  - unfold src_dec. pose proof (Hc p) as Hp. destruct (m !! p) as [k|] eqn:E.
    + destruct (decide (k - 1 = 0)) as [Hk|Hk]; simpl; (split; [|split; [|done || lia]; lia || done]).
      * intros q. rewrite refs_snoc. unfold refs1. specialize (Hc q). case_decide as Hq; [subst; rewrite lookup_delete; lia|by rewrite lookup_delete_ne].
      * intros q. rewrite refs_snoc. unfold refs1. specialize (Hc q). case_decide as Hq; [subst; rewrite lookup_insert; lia|by rewrite lookup_insert_ne].
    + simpl. split; [|split; [lia|done]]. intros q. rewrite refs_snoc. unfold refs1. specialize (Hc q). case_decide as Hq; [subst; rewrite E; lia|done].
Qed.

Lemma produces_gen h : forall m pre m', counts m (refs pre) -> well_behaved pre h -> produces m h m' ->
  counts m' (refs (pre ++ h)) /\
  forall h1 p kept h2, h = h1 ++ Dec p kept :: h2 -> (kept = false <-> refs (pre ++ h1) p = 1).
Proof.
  induction h as [|e h IH]; intros m pre m' Hc Hw Hp.
  - simpl in Hp. subst. rewrite app_nil_r. split; [done|]. intros h1 p kept h2 H. by destruct h1.
  - destruct Hw as [He Hw]. pose proof (counts_step m pre e Hc He) as Hs.
    assert (Hnext : exists m1, counts m1 (refs (pre ++ [e])) /\ produces m1 h m' /\
              (forall p kept, e = Dec p kept -> (kept = false <-> refs pre p = 1))).
    { destruct e as [p|p|p kept]; simpl in Hp.
      - exists m. split; [done|]. split; [done|]. intros; discriminate.
      - exists (src_inc m p). split; [done|]. split; [done|]. intros; discriminate.
      - destruct Hp as [Hk Hp], Hs as [Hs Hf]. exists (fst (src_dec m p)). split; [done|]. split; [done|]. intros p' kept' [= <- <-]. by rewrite <- Hk. }
    destruct Hnext as (m1 & Hc1 & Hp1 & Hd). destruct (IH m1 (pre ++ [e]) m' Hc1 Hw Hp1) as [H1 H2].
    rewrite <- app_assoc in H1. split; [done|]. intros h1 p kept h2 E. destruct h1 as [|e1 h1].
    + injection E as -> ->. rewrite app_nil_r. by apply Hd.
    + injection E as <- ->. specialize (H2 h1 p kept h2 eq_refl). by rewrite <- app_assoc in H2.
Qed.

(** C19. In every history the counter produces for well-behaved clients, a decrement answers "free it" exactly if it gave up the
    last reference; and once all strings are gone the counter's map is empty. *)
Theorem C19_freed_with_last_reference h m : well_behaved [] h -> produces ∅ h m ->
  forall h1 p kept h2, h = h1 ++ Dec p kept :: h2 -> (kept = false <-> refs h1 p = 1).
Proof.
  intros Hw Hp. destruct (produces_gen h ∅ [] m) as [_ H]; [|done|done|exact H]. intros p. rewrite lookup_empty. simpl. unfold refs. simpl. lia.
Qed.
Theorem C19_no_entries_left h m : well_behaved [] h -> produces ∅ h m -> (forall p, refs h p = 0) -> m = ∅.
Proof.
  intros Hw Hp H0. destruct (produces_gen h ∅ [] m) as [Hc _]; [|done|done|].
  - intros p. rewrite lookup_empty. unfold refs. simpl. lia.
  - apply map_eq. intros p. rewrite lookup_empty. specialize (Hc p). simpl in Hc. rewrite (H0 p) in Hc. destruct (m !! p); [lia|done].
Qed.
(** The counter can serve every well-behaved history of requests (it never fails): for each there are answers. *)
Theorem C19_answers_exist (req : list sevent) : exists h m, produces ∅ h m /\
  Forall2 (fun e e' => match e, e' with Alloc p, Alloc q | Inc p, Inc q | Dec p _, Dec q _ => p = q | _, _ => False end) req h.
Proof.
  generalize (∅ : gmap N nat). induction req as [|e req IH]; intros m; [exists [], m; split; [done|constructor]|].
  destruct e as [p|p|p k].
  - destruct (IH m) as (h & m' & H1 & H2). exists (Alloc p :: h), m'. split; [done|]. by constructor.
  - destruct (IH (src_inc m p)) as (h & m' & H1 & H2). exists (Inc p :: h), m'. split; [done|]. by constructor.
  - destruct (IH (fst (src_dec m p))) as (h & m' & H1 & H2). exists (Dec p (snd (src_dec m p)) :: h), m'. split; [done|]. by constructor.
Qed.
Example C19_example :
  let h := [Alloc 1; Alloc 2; Inc 1; Inc 1; Dec 2 false; Dec 1 true; Dec 1 true; Alloc 2; Inc 2; Dec 1 false; Dec 2 true; Dec 2 false]%N in
  well_behaved [] h /\ exists m, produces ∅ h m.
Proof. split; [vm_compute; repeat split; lia|]. eexists. cbn [produces]. repeat (split; [by vm_compute|]). done. Qed.

Print Assumptions C19_freed_with_last_reference.
Print Assumptions C19_no_entries_left.
