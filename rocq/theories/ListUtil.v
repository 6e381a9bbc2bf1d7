(** Sums over lists. *)
From stdpp Require Import base list.
From Coq Require Import Lia.

Fixpoint sumw {A} (f : A -> nat) (l : list A) : nat := match l with [] => 0 | x :: r => f x + sumw f r end.

Lemma sumw_insert {A} (f : A -> nat) l i x y : l !! i = Some x -> sumw f (<[i := y]> l) + f x = sumw f l + f y.
Proof.
  revert i. induction l as [|z l IH]; intros [|i] H; simpl in *; try discriminate.
  - injection H as ->. lia.
  - specialize (IH _ H). lia.
Qed.
Lemma sumw_lookup {A} (f : A -> nat) l i x : l !! i = Some x -> f x <= sumw f l.
Proof. revert i. induction l as [|z l IH]; intros [|i] H; simpl in *; try discriminate; [injection H as ->|apply IH in H]; lia. Qed.
Lemma sumw_ext {A B} (g : A -> B) (f : B -> nat) l l' : g <$> l = g <$> l' -> sumw (fun x => f (g x)) l = sumw (fun x => f (g x)) l'.
Proof. revert l'. induction l as [|x l IH]; intros [|y l'] H; simpl in *; try discriminate; [done|]. injection H as E H. rewrite E, (IH _ H). done. Qed.
Lemma sumw_fmap {A B} (g : A -> B) (f : B -> nat) l : sumw f (g <$> l) = sumw (fun x => f (g x)) l.
Proof. induction l as [|x l IH]; simpl; [done|]. by rewrite <- IH. Qed.

