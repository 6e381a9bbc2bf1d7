(** Vocabulary shared by the models: the outcome of running a piece of C++, checked array accesses, counted loops,
    and the loop-invariant rules used to reason about them. Nothing here is specific to a file in /repo. *)
From stdpp Require Import base list.
From Coq Require Import Lia.

(** What a call can do: return, throw an exception, or perform an out-of-bounds access / other undefined behaviour. *)
Inductive outcome (A : Type) : Type :=
| Ok (a : A)
| Throw
| UB.
Arguments Ok {A} a.
Arguments Throw {A}.
Arguments UB {A}.

Definition obind {A B} (m : outcome A) (k : A -> outcome B) : outcome B :=
  match m with Ok a => k a | Throw => Throw | UB => UB end.
Notation "'let*' x := m 'in' k" := (obind m (fun x => k)) (at level 200, x pattern, m at level 100, k at level 200, right associativity).

(** Array element read [a[i]] and write [a[i] = v]; outside the allocation both are undefined behaviour. *)
Definition rd {A} (a : list A) (i : nat) : outcome A := match a !! i with Some v => Ok v | None => UB end.
Definition wr {A} (a : list A) (i : nat) (v : A) : outcome (list A) := if decide (i < length a) then Ok (<[i := v]> a) else UB.

(** [for (i = lo; i < lo + n; i++) s = f i s]. *)
Fixpoint forn {St} (n lo : nat) (f : nat -> St -> outcome St) (s : St) : outcome St :=
  match n with
  | 0 => Ok s
  | S n' => let* s' := f lo s in forn n' (S lo) f s'
  end.
(** [for (i = lo; i < hi; i++) s = f i s]. *)
Definition for_up {St} (lo hi : nat) (f : nat -> St -> outcome St) (s : St) : outcome St := forn (hi - lo) lo f s.
(** [for (i = hi; i > lo; i--) s = f i s]. *)
Fixpoint forn_down {St} (n hi : nat) (f : nat -> St -> outcome St) (s : St) : outcome St :=
  match n with
  | 0 => Ok s
  | S n' => let* s' := f hi s in forn_down n' (hi - 1) f s'
  end.
Definition for_down {St} (hi lo : nat) (f : nat -> St -> outcome St) (s : St) : outcome St := forn_down (hi - lo) hi f s.

Lemma rd_Ok {A} (a : list A) i v : a !! i = Some v -> rd a i = Ok v.
Proof. unfold rd. by intros ->. Qed.
Lemma rd_inv {A} (a : list A) i v : rd a i = Ok v -> a !! i = Some v.
Proof. unfold rd. destruct (a !! i); congruence. Qed.
Lemma wr_Ok {A} (a : list A) i v : i < length a -> wr a i v = Ok (<[i := v]> a).
Proof. unfold wr. intros H. by rewrite decide_True. Qed.
Lemma rd_lt {A} (a : list A) i : i < length a -> exists v, a !! i = Some v /\ rd a i = Ok v.
Proof. intros H. destruct (lookup_lt_is_Some_2 a i H) as [v Hv]. exists v. split; [done|]. by apply rd_Ok. Qed.

(** Loop-invariant rule: if the invariant is preserved by each iteration (which then does not fail), the loop succeeds. *)
Lemma forn_inv {St} (P : nat -> St -> Prop) n lo f s :
  P lo s ->
  (forall i s, lo <= i < lo + n -> P i s -> exists s', f i s = Ok s' /\ P (1 + i) s') ->
  exists s', forn n lo f s = Ok s' /\ P (lo + n) s'.
Proof.
  revert lo s. induction n as [|n IH]; intros lo s H0 Hs; simpl.
  - exists s. rewrite Nat.add_0_r. done.
  - destruct (Hs lo s) as (s1 & E1 & H1); [lia|done|]. rewrite E1. simpl.
    destruct (IH (1 + lo) s1) as (s2 & E2 & H2); [done| |].
    + intros i s' Hi HP. apply Hs; [lia|done].
    + exists s2. simpl in E2. rewrite E2. split; [done|]. by replace (lo + S n) with (1 + lo + n) by lia.
Qed.
Lemma for_up_inv {St} (P : nat -> St -> Prop) lo hi f s :
  lo <= hi -> P lo s ->
  (forall i s, lo <= i < hi -> P i s -> exists s', f i s = Ok s' /\ P (1 + i) s') ->
  exists s', for_up lo hi f s = Ok s' /\ P hi s'.
Proof.
  intros Hl H0 Hs. destruct (forn_inv P (hi - lo) lo f s H0) as (s' & E & HP).
  - intros i t Hi. apply Hs. lia.
  - exists s'. split; [done|]. by replace (lo + (hi - lo)) with hi in HP by lia.
Qed.
Lemma forn_down_inv {St} (P : nat -> St -> Prop) n hi f s :
  n <= hi -> P hi s ->
  (forall i s, hi - n < i <= hi -> P i s -> exists s', f i s = Ok s' /\ P (i - 1) s') ->
  exists s', forn_down n hi f s = Ok s' /\ P (hi - n) s'.
Proof.
  revert hi s. induction n as [|n IH]; intros hi s Hn H0 Hs; simpl.
  - exists s. rewrite Nat.sub_0_r. done.
  - destruct (Hs hi s) as (s1 & E1 & H1); [lia|done|]. rewrite E1. simpl.
    destruct (IH (hi - 1) s1) as (s2 & E2 & H2); [lia|done| |].
    + intros i s' Hi HP. apply Hs; [lia|done].
    + exists s2. rewrite E2. split; [done|]. by replace (hi - S n) with (hi - 1 - n) by lia.
Qed.
Lemma for_down_inv {St} (P : nat -> St -> Prop) hi lo f s :
  lo <= hi -> P hi s ->
  (forall i s, lo < i <= hi -> P i s -> exists s', f i s = Ok s' /\ P (i - 1) s') ->
  exists s', for_down hi lo f s = Ok s' /\ P lo s'.
Proof.
  intros Hl H0 Hs. destruct (forn_down_inv P (hi - lo) hi f s) as (s' & E & HP); [lia|done| |].
  - intros i t Hi. apply Hs. lia.
  - exists s'. split; [done|]. by replace (hi - (hi - lo)) with lo in HP by lia.
Qed.

(** Extensionality of loops. *)
Lemma forn_ext {St} n lo (f g : nat -> St -> outcome St) s :
  (forall i s, lo <= i < lo + n -> f i s = g i s) -> forn n lo f s = forn n lo g s.
Proof.
  revert lo s. induction n as [|n IH]; intros lo s H; simpl; [done|].
  rewrite H by lia. destruct (g lo s); simpl; [|done|done]. apply IH. intros. apply H. lia.
Qed.
Lemma for_up_ext {St} lo hi (f g : nat -> St -> outcome St) s :
  (forall i s, lo <= i < hi -> f i s = g i s) -> for_up lo hi f s = for_up lo hi g s.
Proof. intros H. apply forn_ext. intros. apply H. lia. Qed.
Lemma forn_snoc {St} n lo (f : nat -> St -> outcome St) s :
  forn (1 + n) lo f s = (let* t := forn n lo f s in f (lo + n) t).
Proof.
  revert lo s. induction n as [|n IH]; intros lo s.
  - simpl. rewrite Nat.add_0_r. by destruct (f lo s).
  - change (forn (1 + S n) lo f s) with (let* s' := f lo s in forn (1 + n) (1 + lo) f s').
    change (forn (S n) lo f s) with (let* s' := f lo s in forn n (1 + lo) f s').
    destruct (f lo s) as [t| |]; [|done|done]. cbn [obind]. rewrite IH. by replace (1 + lo + n) with (lo + S n) by lia.
Qed.
Lemma forn_app {St} n m lo (f : nat -> St -> outcome St) s :
  forn (n + m) lo f s = (let* t := forn n lo f s in forn m (lo + n) f t).
Proof.
  revert lo s. induction n as [|n IH]; intros lo s; simpl.
  - by rewrite Nat.add_0_r.
  - destruct (f lo s) as [t| |]; simpl; [|done|done]. rewrite IH. by replace (S lo + n) with (lo + S n) by lia.
Qed.
Lemma obind_Ok {A B} (m : outcome A) (k : A -> outcome B) b : obind m k = Ok b -> exists a, m = Ok a /\ k a = Ok b.
Proof. destruct m as [a| |]; simpl; [|done|done]. intros H. by exists a. Qed.
