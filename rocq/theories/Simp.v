(** C63: simplifying an element-wise expression keeps its value — where it does, and where it does not. *)
From Coq Require Import Floats.SpecFloat Strings.String.
From stdpp Require Import base numbers list list_numbers relations.
From Verif Require Import CppBase SimpSpec SimpModel SimpFloat SimpProofs.
Local Open Scope Z_scope.

(** ** When the compiler's types are right *)

(** the value agrees with what the compiler knows about it *)
Definition fits (ty : sty) (v : value) : Prop :=
  match ty with
  | Unk => True
  | Sca t => exists p, v = VS t p
  | Mat t n m _ => exists t' n' m' x, v = VM t' n' m' x /\ (t = None \/ t = Some t') /\ (n = -1 \/ n = Z.of_nat n') /\ (m = -1 \/ m = Z.of_nat m')
  end.

(** the direct operands of an operation *)
Definition operands (e : expr) : list expr :=
  match e with
  | ELeaf _ _ | EConst _ _ => []
  | EToStr a | EMinus _ a | ERnd _ _ a | ERename _ a | EDim _ a | ETrans _ a => [a]
  | EBin _ _ a b | EConcat _ a b | EMatMul _ a b _ _ => [a; b]
  | ECond _ c a b | EIf _ c a b => [c; a; b]
  end.

Section C63.
  (** [wrapv]: signed overflow is two's complement (else undefined); [pw]: powers; [show]: numbers as strings; [rounding]: floor, ceil and round of a
      floating-point number; [prod]: matrix products; [choose]: conditions that are matrices; [leaf]: the values of all other operations. *)
  Context (wrapv : bool) (pw : vt -> pay -> pay -> pay) (show : vt -> pay -> string).
  Context (rounding : rnd -> vt -> spec_float -> spec_float) (prod : value -> value -> outcome value) (choose : value -> value -> value -> outcome value).
  Context (leaf : nat -> outcome value).
  Notation eval := (eval wrapv pw show rounding prod choose leaf).
  Notation ebin := (ebin wrapv pw show).

  (** the compiler's type for an expression is right, and the value is one of its type *)
  Definition right (e : expr) : Prop := forall v, eval e = Ok v -> good v /\ fits (typ e) v.
  (** ... for the operands of an operation and their operands, which is as deep as a rule looks *)
  Definition right_below (e : expr) : Prop := forall a, a ∈ operands e -> right a /\ forall b, b ∈ operands a -> right b.

  (** ** When a rule keeps the value *)

  (** the value a subtraction [a - X] is rewritten for: see [sub_safe] in SimpProofs.v, which says for a scalar [a] and a cell [x] of [X]:
      - if one of them is a floating-point number but [x] is an integer: [X] is not of type ui64, -2^63 < x < 2^63, and not both [x = 0] and [a = -0.0];
      - if both are integers: the more general of their types is si64 or ui64, and [x] is not -2^63 (nor, for the index type, 2^63), unless [X] is of type ui64;
      - nothing if [x] is a floating-point number. *)
  Definition kept (e : expr) : Prop :=
    match e with
    | EBin _ Add a b =>
        (* the type of the left operand is known; a string on the left has a scalar on the right *)
        typ a <> Unk /\ (typ a = Sca TStr -> is_sca (typ b) = true)
    | EBin _ Sub a b =>
        forall ta x w, eval a = Ok (VS ta x) -> eval b = Ok w ->
          sub_type_safe ta (vt_of w) /\ forall y, y ∈ cells w -> sub_safe wrapv ta x (vt_of w) y
    | EBin _ Div a b => False
    | _ => True
    end.

  Lemma right_l ty o a b : right_below (EBin ty o a b) -> right a.
  Proof. intros H. apply H. cbn [operands]. apply elem_of_list_here. Qed.
  Lemma right_r ty o a b : right_below (EBin ty o a b) -> right b.
  Proof. intros H. apply H. cbn [operands]. apply elem_of_list_further, elem_of_list_here. Qed.

  Lemma concat_keeps a' b' ty v w r : good v -> good w -> vt_of v = TStr -> vt_of w = TStr ->
    (forall t p u n m x, v = VS t p -> w = VM u n m x -> False) -> eval a' = Ok v -> eval b' = Ok w -> ebin Add v w = Ok r -> eval (EConcat ty a' b') = Ok r.
  Proof. intros Hv Hw Ev Ew Hno Ea Eb H. cbn [SimpModel.eval]. rewrite Ea, Eb. cbn [obind]. by eapply add_concat. Qed.

  Lemma to_str_sca a t p : eval a = Ok (VS t p) -> eval (EToStr a) = Ok (VS TStr (PS (str_of show t p))).
  Proof. intros E. cbn [SimpModel.eval]. rewrite E. done. Qed.

  Lemma add_keeps ty a b e' v : right a -> right b -> kept (EBin ty Add a b) -> canon_add ty a b = Some e' -> eval (EBin ty Add a b) = Ok v -> eval e' = Ok v.
  Proof.
    intros Ra Rb [Hka Hkb] Hc Hv. pose proof Hv as Hev. cbn [SimpModel.eval] in Hv.
    destruct (eval a) as [va| |] eqn:Ea; try done. destruct (eval b) as [vb| |] eqn:Eb; try done. cbn [obind] in Hv.
    destruct (Ra va Ea) as [Ga Fa], (Rb vb Eb) as [Gb Fb]. unfold canon_add in Hc.
    destruct (decide (typ a = Sca TStr)) as [Sa|Sa].
    - (* a string on the left *)
      rewrite bool_decide_eq_true_2 in Hc by done. cbn [orb negb andb] in Hc. injection Hc as <-. specialize (Hkb Sa). rewrite Sa in Fa. destruct Fa as [pa ->].
      cbn [good of_type] in Ga. destruct pa as [z|f|s]; [by destruct Ga|by destruct Ga|].
      destruct (typ b) as [|tb|]; try done. destruct Fb as [pb ->].
      case_bool_decide as Sb.
      + injection Sb as ->. eapply concat_keeps; [| | | | |exact Ea|exact Eb|exact Hv]; try done.
      + cbn [SimpModel.eval]. rewrite Ea. cbn [obind]. rewrite Eb. cbn [obind to_str]. cbn [econcat cat obind].
        cbn [SimpSpec.ebin] in Hv. unfold sca in Hv. cbn [is_str orb str_of] in Hv. cbn [obind] in Hv. rewrite <- Hv. by destruct tb.
    - rewrite bool_decide_eq_false_2 in Hc by done. cbn [orb negb andb] in Hc. case_bool_decide as Sb.
      + (* a string on the right *)
        rewrite Sb in Fb. destruct Fb as [pb ->]. cbn [good of_type] in Gb. destruct pb as [z|f|s]; [by destruct Gb|by destruct Gb|].
        destruct (typ a) as [|ta|ta na ma da] eqn:Ta; [done| |].
        * cbn [is_mat andb] in Hc. injection Hc as <-. destruct Fa as [pa ->]. cbn [SimpModel.eval]. rewrite Ea. cbn [obind to_str]. rewrite Eb. cbn [obind econcat cat].
          cbn [SimpSpec.ebin] in Hv. unfold sca in Hv. rewrite orb_comm in Hv. cbn [is_str orb str_of obind] in Hv. rewrite <- Hv.
          by replace (most ta TStr) with TStr by (by destruct ta).
        * destruct Fa as (t' & n' & m' & x & -> & _ & _ & _). cbn [is_mat andb] in Hc.
          assert (Ht' : t' = TStr). { cbn [SimpSpec.ebin] in Hv. destruct (mixed t' TStr) eqn:Em; [done|]. by destruct t'. } subst t'.
          assert (He : eval (EConcat ty a b) = Ok v) by (eapply concat_keeps; [| | | | |exact Ea|exact Eb|exact Hv]; done).
          destruct (elem_str _); [by injection Hc as <-|]. injection Hc as <-. exact He.
      + destruct (negb (is_mat (typ a)) && is_mat (typ b)) eqn:Em.
        * (* a number on the left of a matrix *)
          apply andb_prop in Em as [Em1 Em2]. injection Hc as <-. cbn [SimpModel.eval]. rewrite Ea, Eb. cbn [obind].
          destruct (typ a) as [|ta|]; try done. destruct Fa as [pa ->]. assert (Hta : is_str ta = false) by (destruct ta; done).
          rewrite <- comm_value; [exact Hv|]. right. split; [done|]. split; [done|]. destruct vb as [u q|u n m x]; cbn [vt_of]; cbn [SimpSpec.ebin] in Hv.
          -- destruct (typ b); try done. by destruct Fb as (? & ? & ? & ? & ? & _).
          -- destruct (mixed ta u) eqn:Emx; [done|]. unfold mixed in Emx. rewrite Hta in Emx. by destruct (is_str u).
        * destruct (is_mat (typ a) && is_mat (typ b) && elem_str (typ a) && elem_str (typ b)) eqn:Es; [|done]. injection Hc as <-.
          apply andb_prop in Es as [Es Es2]. apply andb_prop in Es as [Es Es1].
          destruct (typ a) as [|?|[[]|] ? ? ?]; try done. destruct (typ b) as [|?|[[]|] ? ? ?]; try done.
          destruct Fa as (ta & na & ma & xa & -> & [Fa|Fa] & _); [done|]. destruct Fb as (tb & nb & mb & xb & -> & [Fb|Fb] & _); [done|].
          injection Fa as <-. injection Fb as <-. eapply concat_keeps; [| | | | |exact Ea|exact Eb|exact Hv]; done.
  Qed.

  (** ** C63: a rule that applies keeps the value of the expression, under the conditions [kept] *)

  Theorem C63_keeps e e' v : right_below e -> kept e -> canon e = Ok (Some e') -> eval e = Ok v -> eval e' = Ok v.
  Proof.
    intros Hr Hk Hc Hv. destruct e as [ty i|t p|ty o a b|ty a b|a|ty a|ty k a|ty a|k a|ty a|ty a b ta tb|ty c a b|ty c a b]; cbn [canon] in Hc; try done.
    - (* arithmetic *)
      pose proof (right_l _ _ _ _ Hr) as Ra. pose proof (right_r _ _ _ _ Hr) as Rb.
      destruct o; cbn [canon] in Hc; [eapply add_keeps; [exact Ra|exact Rb|exact Hk| |exact Hv]; congruence| | |done|done].
      + (* subtraction *)
        injection Hc as Hc. unfold canon_sub in Hc. destruct (is_sca (typ a) && negb (is_sca (typ b))) eqn:E; [|done]. injection Hc as <-.
        cbn [SimpModel.eval] in *. destruct (eval a) as [va| |] eqn:Ea; try done. destruct (eval b) as [vb| |] eqn:Eb; try done. cbn [obind] in *.
        destruct (Ra va Ea) as [Ga Fa], (Rb vb Eb) as [Gb _]. apply andb_prop in E as [E _]. destruct (typ a) as [|ta|]; try done. destruct Fa as [x ->].
        unfold kept in Hk. rewrite Ea, Eb in Hk. destruct (Hk ta x vb eq_refl eq_refl) as [Hk1 Hk2]. pose proof (sub_value wrapv pw show ta x vb v Ga Gb Hk1 Hk2 Hv) as H.
        exact H.
      + (* multiplication *)
        injection Hc as Hc. unfold canon_mul in Hc. destruct (is_sca (typ a) && negb (is_sca (typ b))) eqn:E; [|done]. injection Hc as <-.
        cbn [SimpModel.eval] in *. destruct (eval a) as [va| |] eqn:Ea; try done. destruct (eval b) as [vb| |] eqn:Eb; try done. cbn [obind] in *.
        destruct (Ra va Ea) as [Ga Fa], (Rb vb Eb) as [Gb _]. apply andb_prop in E as [E _]. destruct (typ a) as [|ta|]; try done. destruct Fa as [x ->].
        rewrite <- comm_value; [exact Hv|by left].
    - (* double negation *)
      destruct a as [| | | | |ty' a| | | | | | |]; try done. injection Hc as <-. cbn [SimpModel.eval] in Hv.
      destruct (eval a) as [va| |] eqn:Ea; try done. cbn [obind] in Hv. destruct (emap (neg wrapv) va) as [vb| |] eqn:Eb; try done. cbn [obind] in Hv.
      destruct (Hr (EMinus ty' a)) as [_ Hr']; [apply elem_of_list_here|]. destruct (Hr' a) with (v := va) as [Ga _]; [apply elem_of_list_here|done|].
      f_equal. symmetry. by eapply emap_neg_neg.
    - (* roundings *)
      injection Hc as Hc. destruct (known_int (typ a)) eqn:Ek; [|done]. injection Hc as <-. cbn [SimpModel.eval] in Hv.
      destruct (eval a) as [va| |] eqn:Ea; try done. cbn [obind] in Hv. destruct (Hr a) as [Ra _]; [apply elem_of_list_here|]. destruct (Ra va Ea) as [Ga Fa].
      f_equal. symmetry. eapply emap_round; [done| |done]. unfold known_int in Ek. destruct (typ a) as [|t|[t|] n m d]; try done; cbn [fits] in Fa.
      + destruct Fa as [p ->]. by apply andb_prop in Ek as [Ek _].
      + destruct Fa as (t' & n' & m' & x & -> & [Ft|Ft] & _); [done|]. injection Ft as <-. by apply andb_prop in Ek as [Ek _].
    - injection Hc as <-. done.
    - (* sizes *)
      injection Hc as Hc. unfold canon_dim in Hc. cbn [SimpModel.eval] in Hv. destruct (eval a) as [va| |] eqn:Ea; try done. cbn [obind] in Hv.
      destruct (Hr a) as [Ra _]; [apply elem_of_list_here|]. destruct (Ra va Ea) as [Ga Fa]. destruct (typ a) as [| |t n m d]; try done.
      destruct Fa as (t' & n' & m' & x & -> & _ & Fn & Fm). cbn [size_of] in Hv. rewrite <- Hv.
      destruct k; case_decide as Hd; try done; injection Hc as <-; cbn [SimpModel.eval]; repeat f_equal; lia.
    - (* matrix products *)
      injection Hc as Hc. unfold canon_matmul in Hc. destruct b as [| | | | | | | | |tyb b| | |]; try done.
      assert (He : e' = EMatMul ty a b ta (negb tb)) by (destruct tyb as [| |? ? ? []]; congruence). subst e'. clear Hc.
      cbn [SimpModel.eval] in *. destruct (eval a) as [va| |]; try done. destruct (eval b) as [vb| |] eqn:Eb; try done. cbn [obind] in *.
      destruct (Hr (ETrans tyb b)) as [_ Hr']; [apply elem_of_list_further, elem_of_list_here|].
      destruct (Hr' b) with (v := vb) as [Gb _]; [apply elem_of_list_here|done|].
      destruct (etrans vb) as [vt| |] eqn:Et; try done. cbn [obind] in Hv. destruct (if ta then etrans va else Ok va) as [va'| |]; try done. cbn [obind] in *.
      destruct tb; cbn [negb].
      + rewrite (etrans_etrans vb vt Gb Et) in Hv. cbn [obind] in *. exact Hv.
      + exact Hv.
    - (* conditions *)
      unfold canon_cond in Hc. destruct (typ c) as [|t|] eqn:Tc; try done. case_decide as Hd; [|case_decide; done]. injection Hc as <-.
      cbn [SimpModel.eval] in *. destruct (eval c) as [vc| |] eqn:Ec; try done. cbn [obind] in *. destruct (eval a) as [va| |]; try done. cbn [obind] in *.
      destruct (eval b) as [vb| |]; try done. cbn [obind] in *. destruct (Hr c) as [Rc _]; [apply elem_of_list_here|]. destruct (Rc vc Ec) as [_ Fc].
      rewrite Tc in Fc. destruct Fc as [p ->]. exact Hv.
  Qed.

  (** ** ... wherever in an expression it applies, and however often *)

  (** the operation with other operands *)
  Definition rebuild (e : expr) (l : list expr) : expr :=
    match e, l with
    | EToStr _, [a] => EToStr a | EMinus ty _, [a] => EMinus ty a | ERnd ty k _, [a] => ERnd ty k a | ERename ty _, [a] => ERename ty a
    | EDim k _, [a] => EDim k a | ETrans ty _, [a] => ETrans ty a
    | EBin ty o _ _, [a; b] => EBin ty o a b | EConcat ty _ _, [a; b] => EConcat ty a b | EMatMul ty _ _ ta tb, [a; b] => EMatMul ty a b ta tb
    | ECond ty _ _ _, [c; a; b] => ECond ty c a b | EIf ty _ _ _, [c; a; b] => EIf ty c a b
    | _, _ => e
    end.
  Inductive rewrites : expr -> expr -> Prop :=
  | rw_here e e' : right_below e -> kept e -> canon e = Ok (Some e') -> rewrites e e'
  | rw_in e i a a' : operands e !! i = Some a -> rewrites a a' -> rewrites e (rebuild e (<[i := a']> (operands e))).

  Lemma eval_rebuild e i a a' v : operands e !! i = Some a -> (forall u, eval a = Ok u -> eval a' = Ok u) -> eval e = Ok v ->
    eval (rebuild e (<[i := a']> (operands e))) = Ok v.
  Proof.
    intros Hi Ha Hv. destruct e as [ty j|t p|ty o x y|ty x y|x|ty x|ty k x|ty x|k x|ty x|ty x y ta tb|ty c x y|ty c x y]; cbn [operands] in Hi;
      try (destruct i; done);
      try (destruct i as [|[|i]]; [injection Hi as ->| |]; try done);
      try (injection Hi as ->);
      cbn [operands list_insert insert rebuild] in *; cbn [SimpModel.eval] in *.
    all: try (destruct (eval a) as [va| |] eqn:Ea; try done; rewrite (Ha va eq_refl); exact Hv).
    all: try (destruct (eval x) as [vx| |] eqn:Ex; try done; destruct (eval a) as [va| |] eqn:Ea; try done; rewrite (Ha va eq_refl); exact Hv).
    all: try (destruct (eval c) as [vc| |] eqn:Ec; try done; destruct (eval a) as [va| |] eqn:Ea; try done; rewrite (Ha va eq_refl); exact Hv).
    all: destruct i as [|i]; [|done]; injection Hi as ->; cbn [operands list_insert insert rebuild] in *; cbn [SimpModel.eval] in *.
    all: destruct (eval c) as [vc| |] eqn:Ec; try done; destruct (eval x) as [vx| |] eqn:Ex; try done; destruct (eval a) as [va| |] eqn:Ea; try done;
      rewrite (Ha va eq_refl); exact Hv.
  Qed.

  Theorem C63_anywhere e e' v : rtc rewrites e e' -> eval e = Ok v -> eval e' = Ok v.
  Proof.
    intros H. revert v. induction H as [e|e e1 e2 Hs _ IH]; intros v Hv; [done|]. apply IH. clear IH. revert v Hv.
    induction Hs as [e e' Hr Hk Hc|e i a a' Hi Hs IH]; intros v Hv; [by eapply C63_keeps|]. by eapply eval_rebuild.
  Qed.
End C63.

(** ** Where the value is not kept *)

Section Refuted.
  Context (pw : vt -> pay -> pay -> pay) (show : vt -> pay -> string).
  Context (rounding : rnd -> vt -> spec_float -> spec_float) (prod : value -> value -> outcome value) (choose : value -> value -> value -> outcome value).
  Notation eval wrapv := (eval wrapv pw show rounding prod choose).
  Notation right_below wrapv := (right_below wrapv pw show rounding prod choose).
  (** two operands *)
  Definition two (v w : value) (i : nat) : outcome value := match i with 0%nat => Ok v | _ => Ok w end.
  Definition lhs (ty : sty) : expr := ELeaf ty 0.
  Definition rhs (ty : sty) : expr := ELeaf ty 1.

  Lemma right_two wrapv v w ty o t1 t2 : good v -> good w -> fits t1 v -> fits t2 w -> right_below wrapv (two v w) (EBin ty o (lhs t1) (rhs t2)).
  Proof.
    intros Gv Gw Fv Fw a Ha. cbn [operands] in Ha.
    apply elem_of_cons in Ha as [->|Ha]; [|apply elem_of_list_singleton in Ha as ->]; (split; [|intros b Hb; by apply elem_of_nil in Hb]);
      intros u Hu; cbn [SimpModel.eval lhs rhs two] in Hu; injection Hu as <-; done.
  Qed.

  Definition strs (l : list (list string)) (n m : nat) : value := VM TStr n m (map (map PS) l).
  Definition ints (t : vt) (l : list (list Z)) (n m : nat) : value := VM t n m (map (map PI) l).
  Definition one_of (p : pay) (t : vt) : value := VM t 1 1 [[p]].

  Lemma good_strs l n m : length l = n -> Forall (fun row => length row = m) l -> good (strs l n m).
  Proof.
    intros Hn Hm. unfold strs. cbn [good]. split; [by rewrite map_length|]. apply Forall_map. eapply Forall_impl; [exact Hm|]. intros row Hr. cbn.
    split; [by rewrite map_length|]. apply Forall_map. apply Forall_true. done.
  Qed.
  Lemma good_ints t l n m : is_int t = true -> length l = n -> Forall (fun row => length row = m /\ Forall (in_type t) row) l -> good (ints t l n m).
  Proof.
    intros Ht Hn Hm. unfold ints. cbn [good]. split; [by rewrite map_length|]. apply Forall_map. eapply Forall_impl; [exact Hm|]. intros row [Hr1 Hr2]. cbn.
    split; [by rewrite map_length|]. apply Forall_map. eapply Forall_impl; [exact Hr2|]. done.
  Qed.
  Lemma fits_mat t nz mz d n m x : nz = Z.of_nat n -> mz = Z.of_nat m -> fits (Mat (Some t) nz mz d) (VM t n m x).
  Proof. intros -> ->. exists t, n, m, x. auto. Qed.

  (** The type of the left operand [x] is not known yet (the parameter of a function, say), the right one is a matrix of strings: the compiler takes [x] for a
      number and swaps the operands. If [x] is a matrix of strings, the strings are concatenated in the wrong order. *)
  Theorem C63_add_unknown_refuted wrapv : exists e e' leaf v v',
    right_below wrapv leaf e /\ canon e = Ok (Some e') /\ eval wrapv leaf e = Ok v /\ eval wrapv leaf e' = Ok v' /\
    v = strs [["ab"]%string] 1 1 /\ v' = strs [["ba"]%string] 1 1.
  Proof.
    exists (EBin Unk Add (lhs Unk) (rhs (Mat (Some TStr) 1 1 false))), (EBin Unk Add (rhs (Mat (Some TStr) 1 1 false)) (lhs Unk)),
      (two (strs [["a"]%string] 1 1) (strs [["b"]%string] 1 1)). do 2 eexists.
    split; [|split; [|split; [|split; [|split; reflexivity]]]]; [|reflexivity..].
    apply right_two; [by apply good_strs; repeat constructor..|done|by apply fits_mat].
  Qed.

  (** ... and if [x] is a matrix of numbers and the right operand is a row, all rows of [x] but the first are lost *)
  Theorem C63_add_unknown_row_refuted wrapv : exists e e' leaf v v',
    right_below wrapv leaf e /\ canon e = Ok (Some e') /\ eval wrapv leaf e = Ok v /\ eval wrapv leaf e' = Ok v' /\
    v = ints TS64 [[11; 22]; [13; 24]] 2 2 /\ v' = ints TS64 [[11; 22]] 1 2.
  Proof.
    exists (EBin Unk Add (lhs Unk) (rhs (Mat (Some TS64) 1 2 false))), (EBin Unk Add (rhs (Mat (Some TS64) 1 2 false)) (lhs Unk)),
      (two (ints TS64 [[1; 2]; [3; 4]] 2 2) (ints TS64 [[10; 20]] 1 2)). do 2 eexists.
    split; [|split; [|split; [|split; [|split; reflexivity]]]]; [|reflexivity..].
    apply right_two; [| |done|by apply fits_mat]; apply good_ints; try done; repeat constructor; done.
  Qed.

  (** a matrix of strings whose type is not known yet, plus a string: an error *)
  Theorem C63_add_unknown_string_refuted wrapv : exists e e' leaf v,
    right_below wrapv leaf e /\ canon e = Ok (Some e') /\ eval wrapv leaf e = Ok v /\ eval wrapv leaf e' = Throw /\
    v = strs [["as"]; ["bs"]]%string 2 1.
  Proof.
    exists (EBin Unk Add (lhs Unk) (rhs (Sca TStr))), (EConcat Unk (EToStr (lhs Unk)) (rhs (Sca TStr))),
      (two (strs [["a"]; ["b"]]%string 2 1) (VS TStr (PS "s"))). eexists.
    split; [|split; [|split; [|split; [|reflexivity]]]]; [|reflexivity..].
    apply right_two; [by apply good_strs; repeat constructor|done|done|by eexists].
  Qed.

  (** a string plus a matrix of strings: an error *)
  Theorem C63_add_string_matrix_refuted wrapv : exists e e' leaf v,
    right_below wrapv leaf e /\ canon e = Ok (Some e') /\ eval wrapv leaf e = Ok v /\ eval wrapv leaf e' = Throw /\
    v = strs [["sa"]; ["sb"]]%string 2 1.
  Proof.
    exists (EBin Unk Add (lhs (Sca TStr)) (rhs (Mat (Some TStr) 2 1 false))), (EConcat Unk (lhs (Sca TStr)) (EToStr (rhs (Mat (Some TStr) 2 1 false)))),
      (two (VS TStr (PS "s")) (strs [["a"]; ["b"]]%string 2 1)). eexists.
    split; [|split; [|split; [|split; [|reflexivity]]]]; [|reflexivity..].
    apply right_two; [done|by apply good_strs; repeat constructor|by eexists|by apply fits_mat].
  Qed.

  (** 1.0 - X for a matrix X of type ui64 with the cell 1: 2^64 instead of 0 *)
  Definition f64 (s : bool) (m : positive) (e : Z) : pay := PF (S754_finite s m e).
  Theorem C63_sub_unsigned_refuted wrapv : exists e e' leaf v v',
    right_below wrapv leaf e /\ canon e = Ok (Some e') /\ eval wrapv leaf e = Ok v /\ eval wrapv leaf e' = Ok v' /\
    v = one_of (PF (S754_zero false)) TF64 /\ v' = one_of (f64 false 4503599627370496 12) TF64 /\ 4503599627370496 * 2 ^ 12 = 2 ^ 64.
  Proof.
    exists (EBin Unk Sub (lhs (Sca TF64)) (rhs (Mat (Some TU64) 1 1 false))),
      (EBin Unk Add (EBin Unk Mul (rhs (Mat (Some TU64) 1 1 false)) (EConst TS64 (PI (-1)))) (lhs (Sca TF64))),
      (two (VS TF64 (f64 false 4503599627370496 (-52))) (ints TU64 [[1]] 1 1)). do 2 eexists.
    split; [|split; [|split; [|split; [|split; [|split]]]]]; [|reflexivity..].
    apply right_two; [done|apply good_ints; try done; repeat constructor; done|by eexists|by apply fits_mat].
  Qed.

  (** 3 - X for integers of type ui32: the result has another type and, below zero, another value *)
  Theorem C63_sub_narrow_refuted wrapv : exists e e' leaf v v',
    right_below wrapv leaf e /\ canon e = Ok (Some e') /\ eval wrapv leaf e = Ok v /\ eval wrapv leaf e' = Ok v' /\
    v = ints TU32 [[2; 4294967294]] 1 2 /\ v' = ints TS64 [[2; -2]] 1 2.
  Proof.
    exists (EBin Unk Sub (lhs (Sca TU32)) (rhs (Mat (Some TU32) 1 2 false))),
      (EBin Unk Add (EBin Unk Mul (rhs (Mat (Some TU32) 1 2 false)) (EConst TS64 (PI (-1)))) (lhs (Sca TU32))),
      (two (VS TU32 (PI 3)) (ints TU32 [[1; 5]] 1 2)). do 2 eexists.
    split; [|split; [|split; [|split; [|split]]]]; [|reflexivity..].
    apply right_two; [done|apply good_ints; try done; repeat constructor; done|by eexists|by apply fits_mat].
  Qed.

  (** -1 - X for the least integer: undefined behaviour instead of the greatest integer *)
  Theorem C63_sub_min_refuted : exists e e' leaf v,
    right_below false leaf e /\ canon e = Ok (Some e') /\ eval false leaf e = Ok v /\ eval false leaf e' = UB /\ v = ints TS64 [[2 ^ 63 - 1]] 1 1.
  Proof.
    exists (EBin Unk Sub (lhs (Sca TS64)) (rhs (Mat (Some TS64) 1 1 false))),
      (EBin Unk Add (EBin Unk Mul (rhs (Mat (Some TS64) 1 1 false)) (EConst TS64 (PI (-1)))) (lhs (Sca TS64))),
      (two (VS TS64 (PI (-1))) (ints TS64 [[- 2 ^ 63]] 1 1)). eexists.
    split; [|split; [|split; [|split]]]; [|reflexivity..].
    apply right_two; [done|apply good_ints; try done; repeat constructor; done|by eexists|by apply fits_mat].
  Qed.

  (** a / X: if the reciprocal of a cell is too large for a floating-point number, the result is infinite. Here a and the cell are the smallest positive number
      (2^-1074), and their quotient is 1. *)
  Definition tiny : pay := f64 false 1 (-1074).
  Theorem C63_div_refuted wrapv : pw TF64 tiny minus_one = PF (S754_infinity false) -> exists e e' leaf v v',
    right_below wrapv leaf e /\ canon e = Ok (Some e') /\ eval wrapv leaf e = Ok v /\ eval wrapv leaf e' = Ok v' /\
    v = one_of (f64 false 4503599627370496 (-52)) TF64 /\ v' = one_of (PF (S754_infinity false)) TF64.
  Proof.
    intros Hpw. exists (EBin Unk Div (lhs (Sca TF64)) (rhs (Mat (Some TF64) 1 1 false))),
      (EBin Unk Mul (EBin Unk Pow (rhs (Mat (Some TF64) 1 1 false)) (EConst TF64 minus_one)) (lhs (Sca TF64))),
      (two (VS TF64 tiny) (one_of tiny TF64)). do 2 eexists.
    split; [|split; [|split; [|split; [|split]]]]; [|reflexivity|reflexivity| |reflexivity..].
    - apply right_two; [done|repeat constructor|by eexists|by apply fits_mat].
    - transitivity (let* y := Ok (one_of (pw TF64 tiny minus_one) TF64) in ebin wrapv pw show Mul y (VS TF64 tiny)); [reflexivity|]. rewrite Hpw. reflexivity.
  Qed.

  (** ... and even for ordinary numbers the two roundings add up: 237 / 237 is not 1, whichever of the two numbers next to 1/237 std::pow returns *)
  Definition n237 : pay := f64 false 8338696185053184 (-45).
  Theorem C63_div_rounding_refuted wrapv : pw TF64 n237 minus_one = f64 false 4864647698763067 (-60) \/ pw TF64 n237 minus_one = f64 false 4864647698763068 (-60) ->
    4864647698763067 * 237 < 2 ^ 60 < 4864647698763068 * 237 /\ 8338696185053184 = 237 * 2 ^ 45 /\ exists e e' leaf v v',
    right_below wrapv leaf e /\ canon e = Ok (Some e') /\ eval wrapv leaf e = Ok v /\ eval wrapv leaf e' = Ok v' /\
    v = one_of (f64 false 4503599627370496 (-52)) TF64 /\ v' <> v.
  Proof.
    intros Hpw. split; [done|]. split; [done|]. exists (EBin Unk Div (lhs (Sca TF64)) (rhs (Mat (Some TF64) 1 1 false))),
      (EBin Unk Mul (EBin Unk Pow (rhs (Mat (Some TF64) 1 1 false)) (EConst TF64 minus_one)) (lhs (Sca TF64))),
      (two (VS TF64 n237) (one_of n237 TF64)). do 2 eexists.
    split; [|split; [|split; [|split; [|split]]]]; [|reflexivity|reflexivity| |reflexivity|].
    - apply right_two; [done|repeat constructor|by eexists|by apply fits_mat].
    - transitivity (ebin wrapv pw show Mul (one_of (pw TF64 n237 minus_one) TF64) (VS TF64 n237)); [reflexivity|].
      instantiate (1 := match ebin wrapv pw show Mul (one_of (pw TF64 n237 minus_one) TF64) (VS TF64 n237) with Ok v => v | _ => VS TF64 n237 end).
      destruct Hpw as [-> | ->]; reflexivity.
    - destruct Hpw as [-> | ->]; vm_compute; discriminate.
  Qed.

  (** a / X for single precision: the result is of double precision *)
  Definition f32_2 : pay := PF (S754_finite false 8388608 (-22)).
  Theorem C63_div_single_refuted wrapv f : pw TF64 (f64 false 4503599627370496 (-51)) minus_one = PF f -> exists e e' leaf v v',
    right_below wrapv leaf e /\ canon e = Ok (Some e') /\ eval wrapv leaf e = Ok v /\ eval wrapv leaf e' = Ok v' /\ vt_of v = TF32 /\ vt_of v' = TF64.
  Proof.
    intros Hpw. exists (EBin Unk Div (lhs (Sca TF32)) (rhs (Mat (Some TF32) 1 1 false))),
      (EBin Unk Mul (EBin Unk Pow (rhs (Mat (Some TF32) 1 1 false)) (EConst TF64 minus_one)) (lhs (Sca TF32))),
      (two (VS TF32 f32_2) (one_of f32_2 TF32)). do 2 eexists.
    split; [|split; [|split; [|split; [|split]]]]; [|reflexivity|reflexivity| |reflexivity|].
    - apply right_two; [done|repeat constructor|by eexists|by apply fits_mat].
    - transitivity (ebin wrapv pw show Mul (one_of (pw TF64 (f64 false 4503599627370496 (-51)) minus_one) TF64) (VS TF32 f32_2)); [reflexivity|].
      rewrite Hpw. instantiate (1 := match ebin wrapv pw show Mul (one_of (PF f) TF64) (VS TF32 f32_2) with Ok v => v | _ => VS TF64 f32_2 end).
      destruct f; reflexivity.
    - destruct f; reflexivity.
  Qed.

  (** A condition that is a scalar, and two matrices of different shapes (known to the compiler): the program is rejected, although its value is one of the
      two. It is accepted if the compiler does not know the shapes. *)
  Theorem C63_cond_refuted wrapv : exists e leaf v, canon e = Throw /\ eval wrapv leaf e = Ok v /\
    e = ECond Unk (EConst TS64 (PI 1)) (lhs (Mat (Some TS64) 1 2 false)) (rhs (Mat (Some TS64) 2 1 false)) /\ v = ints TS64 [[1; 2]] 1 2 /\
    exists e', canon (ECond Unk (EConst TS64 (PI 1)) (lhs (Mat (Some TS64) (-1) (-1) false)) (rhs (Mat (Some TS64) (-1) (-1) false))) = Ok (Some e') /\
      eval wrapv leaf e' = Ok v.
  Proof.
    eexists. exists (two (ints TS64 [[1; 2]] 1 2) (ints TS64 [[1]; [2]] 2 1)). eexists. split; [|split; [|split; [reflexivity|split; [reflexivity|]]]];
      [reflexivity..|]. eexists. split; reflexivity.
  Qed.
End Refuted.

(** ** Concrete cases that meet the hypotheses *)

Section Examples.
  Context (pw : vt -> pay -> pay -> pay) (show : vt -> pay -> string).
  Context (rounding : rnd -> vt -> spec_float -> spec_float) (prod : value -> value -> outcome value) (choose : value -> value -> value -> outcome value).
  Notation eval := (eval false pw show rounding prod choose).
  (** 5 - X for X of type si32, where 5 is of type si64 *)
  Definition ex_e : expr := EBin Unk Sub (EConst TS64 (PI 5)) (rhs (Mat (Some TS32) (-1) 2 false)).
  Definition ex_leaf : nat -> outcome value := two (ints TS32 [] 0 0) (ints TS32 [[1; -7]; [5; 2147483647]] 2 2).
  Example C63_example : exists e' v, right_below false pw show rounding prod choose ex_leaf ex_e /\ kept false pw show rounding prod choose ex_leaf ex_e /\
    canon ex_e = Ok (Some e') /\ eval ex_leaf ex_e = Ok v /\ eval ex_leaf e' = Ok v /\ v = ints TS64 [[4; 12]; [0; -2147483642]] 2 2.
  Proof.
    do 2 eexists. split; [|split; [|split; [|split; [|split]]]]; [| |reflexivity..].
    - intros a Ha. cbn [operands ex_e] in Ha.
      apply elem_of_cons in Ha as [->|Ha]; [|apply elem_of_list_singleton in Ha as ->]; (split; [|intros b Hb; by apply elem_of_nil in Hb]);
        intros u Hu; cbn in Hu; injection Hu as <-.
      + split; [done|by eexists].
      + split; [|exists TS32, 2%nat, 2%nat; eexists; split; [reflexivity|]; auto]. split; [done|]. repeat constructor; done.
    - intros ta x w Ha Hb. cbn in Ha, Hb. injection Ha as <- <-. injection Hb as <-. split; [done|].
      intros y Hy. cbn in Hy. unfold sub_safe. repeat (apply elem_of_cons in Hy as [->|Hy]; [cbn; split; [by left|]; right; right; done|]). by apply elem_of_nil in Hy.
  Qed.
  (** floor(2 * X) inside a sum: the inner product is rewritten in its place *)
  Definition ex_in : expr := EBin Unk Mul (EConst TS64 (PI 2)) (rhs (Mat (Some TS32) (-1) 2 false)).
  Example C63_example_anywhere : exists e' v, rtc (rewrites false pw show rounding prod choose ex_leaf) (ERnd Unk Floor ex_in) e' /\ e' <> ERnd Unk Floor ex_in /\
    eval ex_leaf (ERnd Unk Floor ex_in) = Ok v /\ eval ex_leaf e' = Ok v.
  Proof.
    do 2 eexists. split; [|split; [|split]].
    - apply rtc_once. apply (rw_in _ _ _ _ _ _ _ (ERnd Unk Floor ex_in) 0 ex_in (EBin Unk Mul (rhs (Mat (Some TS32) (-1) 2 false)) (EConst TS64 (PI 2)))); [done|].
      apply rw_here; [|done|done]. intros a Ha. cbn [operands ex_in] in Ha.
      apply elem_of_cons in Ha as [->|Ha]; [|apply elem_of_list_singleton in Ha as ->]; (split; [|intros b Hb; by apply elem_of_nil in Hb]);
        intros u Hu; cbn in Hu; injection Hu as <-.
      + split; [done|by eexists].
      + split; [|exists TS32, 2%nat, 2%nat; eexists; split; [reflexivity|]; auto]. split; [done|]. repeat constructor; done.
    - cbn. discriminate.
    - reflexivity.
    - reflexivity.
  Qed.
End Examples.

Print Assumptions C63_keeps.
Print Assumptions C63_anywhere.
Print Assumptions C63_add_unknown_refuted.
Print Assumptions C63_add_unknown_row_refuted.
Print Assumptions C63_add_unknown_string_refuted.
Print Assumptions C63_add_string_matrix_refuted.
Print Assumptions C63_sub_unsigned_refuted.
Print Assumptions C63_sub_narrow_refuted.
Print Assumptions C63_sub_min_refuted.
Print Assumptions C63_div_refuted.
Print Assumptions C63_div_rounding_refuted.
Print Assumptions C63_div_single_refuted.
Print Assumptions C63_cond_refuted.
