(** C84: calls with positional and keyword arguments, and overloading. *)
From stdpp Require Import base numbers list.
From Coq Require Import Lia.
From Verif Require Import CppBase CallArgsModel CallArgsSpec CallArgsProofs.

(** A call is accepted exactly if the arguments give values to the first parameters;
    these values are passed in the order of the parameters. *)
Theorem C84_order {V} params (args : list (arg V)) :
  params <> [] -> NoDup params ->
  (forall vals, order_args params args = Ok vals <-> binds params args vals) /\
  (order_args params args = Throw <-> forall vals, ~ binds params args vals) /\
  order_args params args <> UB.
Proof.
  intros NE ND. split; [intros vals; apply order_binds; assumption|]. pose proof (order_no_ub params args) as U. split; [|exact U].
  split.
  - intros H vals B. apply order_binds in B; [congruence|exact NE|exact ND].
  - intros H. destruct (order_args params args) as [vals| |] eqn:E; [|reflexivity|contradiction]. exfalso. apply (H vals). apply order_binds; assumption.
Qed.
(** The order of keyword arguments does not matter. *)
Theorem C84_keyword_order {V} params (args args' : list (arg V)) pos named named' :
  params <> [] -> NoDup params -> split_args args pos named -> split_args args' pos named' -> named ≡ₚ named' ->
  order_args params args = order_args params args'.
Proof.
  intros NE ND S S' P.
  assert (X : forall (a a' : list (arg V)) n n', split_args a pos n -> split_args a' pos n' -> n ≡ₚ n' -> forall vals, binds params a vals -> binds params a' vals).
  { intros a a' n n' Sa Sa' Pn vals (pos0 & n0 & S0 & L & R & N & A).
    assert (pos0 = pos /\ n0 = n) as [-> ->].
    { unfold split_args in *. rewrite Sa in S0. clear -S0. revert pos0 S0. induction pos as [|v pos IH]; intros [|v0 pos0] S0; cbn [map app] in S0.
      - split; [reflexivity|]. revert n0 S0. induction n as [|[x w] n IHn]; intros [|[x0 w0] n0] S0; cbn [map fst snd] in S0; try discriminate S0; [reflexivity|]. injection S0 as -> -> S0. f_equal. apply IHn, S0.
      - destruct n; discriminate S0.
      - destruct n0; discriminate S0.
      - injection S0 as -> S0. destruct (IH pos0 S0) as [-> ->]. split; reflexivity. }
    exists pos, n'. split; [exact Sa'|]. split; [exact L|]. split; [exact R|]. split.
    - eapply NoDup_Permutation_proper; [|exact N]. symmetry. apply Permutation_map. exact Pn.
    - intros x v. rewrite <- A. split; intros Hx; [rewrite Pn|rewrite <- Pn]; exact Hx. }
  destruct (C84_order params args NE ND) as (A1 & A2 & A3). destruct (C84_order params args' NE ND) as (B1 & B2 & B3).
  destruct (order_args params args) as [vals| |]; [| |contradiction].
  - symmetry. apply B1. apply (X args args' named named' S S' P). apply A1. reflexivity.
  - symmetry. apply B2. intros vals H. apply (proj1 A2 eq_refl vals). apply (X args' args named' named S' S (Permutation_sym P)). exact H.
Qed.
(** Values for all parameters, or the first ones, can be given by position. *)
Lemma binds_pos {V} params (vals : list V) : length vals <= length params -> binds params (map (mkArg None) vals) vals.
Proof.
  intros L. exists vals, []. split; [unfold split_args; cbn [map]; rewrite app_nil_r; reflexivity|]. split; [exact L|]. split; [exists []; rewrite app_nil_r; reflexivity|]. split; [constructor|].
  intros n v. split; [intros X; apply elem_of_nil in X as []|]. intros (i & I1 & _ & I3). apply lookup_lt_Some in I3. lia.
Qed.
Theorem C84_positional {V} params (vals : list V) :
  params <> [] -> NoDup params -> length vals <= length params -> order_args params (map (mkArg None) vals) = Ok vals.
Proof. intros NE ND L. apply order_binds; [exact NE|exact ND|]. apply binds_pos, L. Qed.
(** Or by name in any order. *)
Theorem C84_named {V} params (vals : list V) named :
  params <> [] -> NoDup params -> length vals = length params -> named ≡ₚ zip params vals ->
  order_args params (map (fun e => mkArg (Some (fst e)) (snd e)) named) = Ok vals.
Proof.
  intros NE ND L P. apply order_binds; [exact NE|exact ND|]. exists [], named. split; [reflexivity|]. split; [lia|]. split; [exists vals; reflexivity|].
  split.
  - eapply NoDup_Permutation_proper; [apply Permutation_map, P|]. change (map fst (zip params vals)) with ((zip params vals).*1). rewrite fst_zip by lia. exact ND.
  - intros n v. rewrite P. split.
    + intros H. apply elem_of_list_lookup in H as [i H]. apply lookup_zip_with_Some in H as (x & y & [= -> ->] & H1 & H2). exists i. split; [cbn; lia|]. split; assumption.
    + intros (i & _ & H1 & H2). apply elem_of_list_lookup. exists i. apply lookup_zip_with_Some. exists n, v. repeat split; assumption.
Qed.

(** * Calls of user-defined functions *)
(** All definitions of [f] with [n] parameters have the same parameter names, and are
    complete. *)
Definition consistent (us : list udf) (f : name) (ns : list name) : Prop :=
  (exists u, u ∈ us /\ u_name u = f /\ map fst (u_params u) = ns) /\
  forall u, u ∈ us -> u_name u = f -> length (u_params u) = length ns -> u_stored u = true /\ map fst (u_params u) = ns.

Lemma call_udf_eq info us f args : overloads us f <> [] -> call_expr info us f args =
  let* names := udf_names (overloads us f) (length args) None in
  let* vs := match names with Some ps => order_args ps args | None => if decide (Exists (fun a => a_name a <> None) args) then Throw else Ok (map a_val args) end in
  match find_udf (overloads us f) vs with Some u => Ok (CUdf u, vs) | None => Throw end.
Proof. intros H. unfold call_expr. destruct (overloads us f); [contradiction|reflexivity]. Qed.
Lemma overloads_elem us f u : u ∈ overloads us f <-> u ∈ us /\ u_name u = f.
Proof. unfold overloads. rewrite elem_of_list_filter. tauto. Qed.
Lemma udf_names_consistent us ns : (forall u, u ∈ us -> length (u_params u) = length ns -> u_stored u = true /\ map fst (u_params u) = ns) ->
  (exists u, u ∈ us /\ length (u_params u) = length ns) -> udf_names us (length ns) None = Ok (Some ns).
Proof.
  induction us as [|u us IH]; intros H [u0 [H0 L0]]; [apply elem_of_nil in H0 as []|]. cbn [udf_names]. destruct (decide (length (u_params u) <> length ns)) as [L|L].
  - apply IH; [intros u' Hu; apply H; right; exact Hu|]. apply elem_of_cons in H0 as [->|H0]; [contradiction|]. exists u0. split; assumption.
  - assert (L' : length (u_params u) = length ns) by (destruct (decide (length (u_params u) = length ns)); [assumption|contradiction]).
    destruct (H u ltac:(left) L') as [-> E]. rewrite E, udf_names_some. rewrite decide_True; [reflexivity|]. apply Forall_forall. intros u' Hu Lu _. apply (H u'); [right; exact Hu|exact Lu].
Qed.
Lemma binds_empty {V} (args : list (arg V)) vals : length args = 0 -> (order_args [] args = Ok vals <-> binds [] args vals).
Proof.
  intros L. destruct args; [|discriminate L]. split.
  - intros [= <-]. apply (binds_pos [] []). cbn. lia.
  - intros (pos & named & S & LV & _). destruct vals; [reflexivity|cbn in LV; lia].
Qed.

(** The function that is called is the first defined one of that name whose
    parameters accept the values; the values are bound to the parameters by position
    and name.  If there is none, or they cannot be bound, there is an error. *)
Theorem C84_udf info us f args ns :
  consistent us f ns -> NoDup ns -> length args = length ns ->
  (forall c vals, call_expr info us f args = Ok (c, vals) <-> exists u, c = CUdf u /\ binds ns args vals /\ first_accepting us f vals u) /\
  call_expr info us f args <> UB.
Proof.
  intros [(u0 & U1 & U2 & U3) C] ND L.
  assert (NE : overloads us f <> []) by (intros X; assert (Y : u0 ∈ overloads us f) by (apply overloads_elem; split; assumption); rewrite X in Y; apply elem_of_nil in Y as []).
  rewrite call_udf_eq by exact NE. rewrite L, udf_names_consistent.
  2:{ intros u Hu. apply overloads_elem in Hu as [H1 H2]. apply C; assumption. }
  2:{ exists u0. split; [apply overloads_elem; split; assumption|]. rewrite <- U3, map_length. reflexivity. }
  cbn [obind].
  assert (OB : forall vals, order_args ns args = Ok vals <-> binds ns args vals).
  { intros vals. destruct ns as [|n ns]; [apply binds_empty, L|apply order_binds; [discriminate|exact ND]]. }
  pose proof (order_no_ub ns args) as U.
  destruct (order_args ns args) as [vs| |]; [| |contradiction]; cbn [obind].
  - pose proof (find_overload us f vs) as F. destruct (find_udf (overloads us f) vs) as [u|]; (split; [|discriminate]); intros c vals; split.
    + intros [= <- <-]. exists u. split; [reflexivity|]. split; [apply OB; reflexivity|exact F].
    + intros (u' & -> & B & FA). apply OB in B. injection B as <-. rewrite (first_accepting_det _ _ _ _ _ F FA). reflexivity.
    + discriminate.
    + intros (u' & _ & B & FA). apply OB in B. injection B as <-. destruct FA as (us1 & us2 & -> & N & A & _). exfalso. apply (F u'); [rewrite elem_of_app, elem_of_cons; tauto|exact N|exact A].
  - split; [|discriminate]. intros c vals. split; [discriminate|]. intros (u' & _ & B & _). apply OB in B. discriminate B.
Qed.
(** With a number of arguments for which there is no definition, there is an error. *)
Theorem C84_udf_arity info us f args :
  (exists u, u ∈ us /\ u_name u = f) -> (forall u, u ∈ us -> u_name u = f -> length (u_params u) <> length args) ->
  call_expr info us f args = Throw.
Proof.
  intros (u0 & U1 & U2) H.
  assert (NE : overloads us f <> []) by (intros X; assert (Y : u0 ∈ overloads us f) by (apply overloads_elem; split; assumption); rewrite X in Y; apply elem_of_nil in Y as []).
  rewrite call_udf_eq by exact NE.
  assert (N : forall us', (forall u, u ∈ us' -> length (u_params u) <> length args) -> udf_names us' (length args) None = Ok None).
  { induction us' as [|u us' IH]; intros X; [reflexivity|]. cbn [udf_names]. rewrite decide_True by (apply X; left). apply IH. intros u' Hu. apply X. right. exact Hu. }
  rewrite N by (intros u Hu; apply overloads_elem in Hu as [X Y]; apply H; assumption). cbn [obind]. destruct (decide _); [reflexivity|]. cbn [obind].
  pose proof (find_overload us f (map a_val args)) as F. destruct (find_udf _ _) as [u|]; [|reflexivity]. exfalso. destruct F as (us1 & us2 & -> & X & A & _).
  apply Forall2_length in A. rewrite map_length in A. apply (H u); [rewrite elem_of_app, elem_of_cons; tauto|exact X|congruence].
Qed.
(** A user-defined function hides the built-in function of the same name. *)
Theorem C84_hides info us f args c vals :
  (exists u, u ∈ us /\ u_name u = f) -> call_expr info us f args = Ok (c, vals) -> exists u, c = CUdf u /\ first_accepting us f vals u.
Proof.
  intros (u0 & U1 & U2) E.
  assert (NE : overloads us f <> []) by (intros X; assert (Y : u0 ∈ overloads us f) by (apply overloads_elem; split; assumption); rewrite X in Y; apply elem_of_nil in Y as []).
  rewrite call_udf_eq in E by exact NE. destruct (udf_names _ _ _) as [names| |]; [|discriminate E|discriminate E]. cbn [obind] in E.
  destruct (match names with Some ps => order_args ps args | None => _ end) as [vs| |]; [|discriminate E|discriminate E]. cbn [obind] in E.
  pose proof (find_overload us f vs) as F. destruct (find_udf _ _) as [u|]; [|discriminate E]. injection E as <- <-. exists u. split; [reflexivity|exact F].
Qed.
(** Built-in functions. *)
Theorem C84_builtin info us f args :
  (forall u, u ∈ us -> u_name u <> f) ->
  (forall ps, info f = Some ps -> ps <> [] -> NoDup ps -> forall c vals, call_expr info us f args = Ok (c, vals) <-> c = CBuiltin f /\ binds ps args vals) /\
  (info f = None -> forall c vals, call_expr info us f args = Ok (c, vals) <-> c = CBuiltin f /\ args = map (mkArg None) vals).
Proof.
  intros H.
  assert (E : overloads us f = []).
  { destruct (overloads us f) as [|u l] eqn:X; [reflexivity|]. exfalso. assert (Y : u ∈ overloads us f) by (rewrite X; left). apply overloads_elem in Y as [Y1 Y2]. exact (H u Y1 Y2). }
  unfold call_expr. rewrite E. split.
  - intros ps -> NE ND c vals. split.
    + intros X. destruct (order_args ps args) as [vs| |] eqn:O; [|discriminate X|discriminate X]. cbn [obind] in X. injection X as <- <-. split; [reflexivity|]. apply order_binds; assumption.
    + intros [-> B]. apply order_binds in B; [|exact NE|exact ND]. rewrite B. reflexivity.
  - intros -> c vals. destruct (decide (Exists (fun a => a_name a <> None) args)) as [X|X].
    + split; [discriminate|]. intros [_ ->]. exfalso. apply Exists_exists in X as (a & Ha & Na). apply elem_of_list_In, in_map_iff in Ha as (v & <- & _). apply Na. reflexivity.
    + assert (F : Forall (fun a : arg val => a_name a = None) args).
      { apply Forall_forall. intros a Ha. destruct (a_name a) as [n|] eqn:En; [|reflexivity]. exfalso. apply X. apply Exists_exists. exists a. split; [exact Ha|congruence]. }
      unfold order_args. rewrite decide_True by exact F. cbn [obind].
      assert (M : map (mkArg None) (map a_val args) = args).
      { clear -F. induction F as [|[o v] args Ho _ IH]; [reflexivity|]. cbn in Ho. subst o. cbn. rewrite IH. reflexivity. }
      split; [intros [= <- <-]; split; [reflexivity|symmetry; exact M]|]. intros [-> ->]. rewrite map_map. cbn. rewrite map_id. reflexivity.
Qed.

(** * Where this fails *)
(** Two definitions with the same number of parameters but different names: every
    call with that number of arguments is an error, also with positional arguments
    and whatever the types. *)
Theorem C84_overload_refuted info us f args u1 u2 :
  u1 ∈ us -> u2 ∈ us -> u_name u1 = f -> u_name u2 = f -> u_stored u1 = true -> u_stored u2 = true ->
  length (u_params u1) = length args -> length (u_params u2) = length args -> map fst (u_params u1) <> map fst (u_params u2) ->
  call_expr info us f args = Throw.
Proof.
  intros I1 I2 N1 N2 S1 S2 L1 L2 D.
  assert (NE : overloads us f <> []) by (intros X; assert (Y : u1 ∈ overloads us f) by (apply overloads_elem; split; assumption); rewrite X in Y; apply elem_of_nil in Y as []).
  rewrite call_udf_eq by exact NE.
  assert (T : forall us', u1 ∈ us' -> u2 ∈ us' -> udf_names us' (length args) None = Throw).
  { induction us' as [|u us' IH]; intros J1 J2; [apply elem_of_nil in J1 as []|]. cbn [udf_names].
    assert (X : forall w, w = u1 \/ w = u2 -> w ∈ us' -> u = u1 \/ u = u2 -> map fst (u_params w) <> map fst (u_params u) -> udf_names us' (length args) (Some (map fst (u_params u))) = Throw).
    { intros w Hw Iw _ Dw. rewrite udf_names_some. rewrite decide_False; [reflexivity|]. intros F. rewrite Forall_forall in F. apply Dw. apply F; [exact Iw| |]; destruct Hw as [-> | ->]; assumption. }
    destruct (decide (u = u1)) as [->|D1]; [|destruct (decide (u = u2)) as [->|D2]].
    - rewrite decide_False by (rewrite L1; tauto). rewrite S1. apply (X u2); [tauto| |tauto|congruence]. apply elem_of_cons in J2 as [->|J2]; [contradiction|exact J2].
    - rewrite decide_False by (rewrite L2; tauto). rewrite S2. apply (X u1); [tauto| |tauto|congruence]. apply elem_of_cons in J1 as [->|J1]; [contradiction|exact J1].
    - apply elem_of_cons in J1 as [->|J1]; [contradiction|]. apply elem_of_cons in J2 as [->|J2]; [contradiction|].
      destruct (decide _); [apply IH; assumption|]. destruct (u_stored u); [|apply IH; assumption].
      rewrite udf_names_some. rewrite decide_False; [reflexivity|]. intros F. rewrite Forall_forall in F. apply D. rewrite (F u1 J1 L1 S1), (F u2 J2 L2 S2). reflexivity. }
  rewrite T; [reflexivity| |]; apply overloads_elem; split; assumption.
Qed.
(** Within its own body, a function cannot be called with keyword arguments. *)
Theorem C84_recursion_refuted info us f args :
  (exists u, u ∈ us /\ u_name u = f) -> (forall u, u ∈ us -> u_name u = f -> length (u_params u) = length args -> u_stored u = false) ->
  (exists a, a ∈ args /\ a_name a <> None) -> call_expr info us f args = Throw.
Proof.
  intros (u0 & U1 & U2) H (a & Ha & Na).
  assert (NE : overloads us f <> []) by (intros X; assert (Y : u0 ∈ overloads us f) by (apply overloads_elem; split; assumption); rewrite X in Y; apply elem_of_nil in Y as []).
  rewrite call_udf_eq by exact NE.
  assert (N : forall us', (forall u, u ∈ us' -> length (u_params u) = length args -> u_stored u = false) -> udf_names us' (length args) None = Ok None).
  { induction us' as [|u us' IH]; intros X; [reflexivity|]. cbn [udf_names].
    assert (IH' : udf_names us' (length args) None = Ok None) by (apply IH; intros u' Hu; apply X; right; exact Hu).
    destruct (decide (length (u_params u) <> length args)) as [L|L]; [exact IH'|]. rewrite (X u); [exact IH'|left|]. destruct (decide (length (u_params u) = length args)); [assumption|contradiction]. }
  rewrite N by (intros u Hu; apply overloads_elem in Hu as [X Y]; apply H; assumption). cbn [obind]. rewrite decide_True; [reflexivity|]. apply Exists_exists. exists a. split; assumption.
Qed.
(** A typed function is not called with a value of another known scalar type: there
    is no cast. *)
Theorem C84_cast_refuted info f p t t' v i :
  t <> t' -> call_expr info [mkUdf f [(p, UScalar t)] i true] f [mkArg None (v, UScalar t')] = Throw.
Proof.
  intros N. set (us := [mkUdf f [(p, UScalar t)] i true]).
  assert (C : consistent us f [p]).
  { split; [eexists; split; [left|split; reflexivity]|]. intros u Hu. unfold us in Hu. apply elem_of_list_singleton in Hu as ->. intros _ _. split; reflexivity. }
  destruct (C84_udf info us f [mkArg None (v, UScalar t')] [p] C (NoDup_singleton p) eq_refl) as [E U].
  destruct (call_expr info us f [mkArg None (v, UScalar t')]) as [[c vals]| |] eqn:X; [|reflexivity|contradiction].
  exfalso. destruct (proj1 (E c vals) eq_refl) as (u & _ & B & (us1 & us2 & EU & _ & A & _)).
  assert (u = mkUdf f [(p, UScalar t)] i true) as ->.
  { unfold us in EU. destruct us1 as [|x us1]; cbn [app] in EU; [congruence|]. injection EU as _ EU. destruct us1; discriminate EU. }
  pose proof (binds_pos (V := val) [p] [(v, UScalar t')] ltac:(cbn; lia)) as B'.
  apply order_binds in B; [|discriminate|apply NoDup_singleton]. apply order_binds in B'; [|discriminate|apply NoDup_singleton].
  cbn [map] in B'. pose proof (eq_trans (eq_sym B) B') as BB. injection BB as ->. unfold accepts in A. cbn [u_params] in A. inversion A as [|? ? ? ? P _]; subst. cbn [snd] in P. inversion P; subst. contradiction.
Qed.
(** Not the most specific definition is called, but the first one: a definition
    without types hides all later ones. *)
Theorem C84_specific_refuted info us f ns args vals u :
  consistent us f ns -> NoDup ns -> length args = length ns -> binds ns args vals ->
  u_name u = f -> map fst (u_params u) = ns -> u_stored u = true -> Forall (fun p => snd p = UUnknown) (u_params u) ->
  call_expr info (u :: us) f args = Ok (CUdf u, vals).
Proof.
  intros [CE CA] ND L B Nu Pu Su Fu.
  assert (C : consistent (u :: us) f ns).
  { split; [exists u; split; [left|split; assumption]|]. intros u' Hu. apply elem_of_cons in Hu as [->|Hu]; [intros _ _; split; assumption|]. apply CA, Hu. }
  apply (C84_udf info (u :: us) f args ns C ND L). exists u. split; [reflexivity|]. split; [exact B|].
  exists [], us. split; [reflexivity|]. split; [exact Nu|]. split; [|intros u' X; apply elem_of_nil in X as []].
  assert (LV : length vals = length (u_params u)).
  { rewrite <- (map_length fst (u_params u)), Pu. destruct B as (pos & named & SP & LV & (rest & ->) & N & A). unfold split_args in SP. subst args. rewrite app_length, !map_length in L.
    enough (length named <= length rest) by (rewrite app_length in *; lia).
    rewrite <- (map_length fst named). assert (S : map fst named ⊆ drop (length pos) (take (length pos + length rest) ns)).
    { intros n X. apply elem_of_list_In, in_map_iff in X as ([n' v'] & En & X). cbn in En. subst n'. apply elem_of_list_In in X. apply A in X as (i & I1 & I2 & I3).
      apply lookup_lt_Some in I3. rewrite app_length in I3. apply elem_of_list_lookup. exists (i - length pos). rewrite lookup_drop, lookup_take by lia. rewrite <- I2. f_equal. lia. }
    pose proof (NoDup_submseteq _ _ N S) as S'. apply submseteq_length in S'. rewrite drop_length, take_length in S'. lia. }
  unfold accepts. clear -Fu LV. revert vals LV. induction Fu as [|p ps Hp _ IH]; intros [|v vals] LV; try discriminate LV; [constructor|]. constructor; [rewrite Hp; constructor|]. apply IH. injection LV as LV. exact LV.
Qed.

(** * map() *)
(** map(X, f), map(X, udf=f) and map(arg=X, udf=f) are the same. *)
Theorem C84_map eval us x f v e :
  eval x = Ok (v, UMatrix e) ->
  let r := match find_udf (overloads us f) [(v, match e with Some e => UScalar e | None => UUnknown end)] with Some u => Ok (u, (v, UMatrix e)) | None => Throw end in
  map_call eval us [mkArg None x; mkArg None f] = r /\
  map_call eval us [mkArg None x; mkArg (Some UDF) f] = r /\
  map_call eval us [mkArg (Some ARG) x; mkArg (Some UDF) f] = r.
Proof. intros H. unfold map_call. cbn [a_val a_name map]. rewrite H. cbn [obind]. repeat split; vm_compute order_args; reflexivity. Qed.
(** But map(udf=f, arg=X) is an error if there is no variable with the name of the
    function, and undefined behaviour if there is one. *)
Theorem C84_map_refuted eval us x f :
  (eval f = Throw -> map_call eval us [mkArg (Some UDF) f; mkArg (Some ARG) x] = Throw) /\
  (forall v, eval f = Ok v -> map_call eval us [mkArg (Some UDF) f; mkArg (Some ARG) x] = UB).
Proof.
  unfold map_call. cbn [a_val a_name map]. split; [intros ->; reflexivity|]. intros v ->. cbn [obind]. vm_compute order_args. reflexivity.
Qed.

(** * Examples *)
(** fill(2, numCols=4, numRows=3), with parameters a, b, c. *)
Theorem C84_example :
  order_args [[97]; [98]; [99]] [mkArg None 2; mkArg (Some [99]) 4; mkArg (Some [98]) 3] = Ok [2; 3; 4] /\
  order_args [[97]; [98]; [99]] [mkArg None 2; mkArg (Some [99]) 4] = Throw /\
  order_args [[97]; [98]; [99]] [mkArg (Some [98]) 4; mkArg None 4] = Throw /\
  order_args [[97]; [98]; [99]] [mkArg None 4; mkArg (Some [97]) 4] = Throw /\
  order_args [[97]; [98]; [99]] [mkArg None 4; mkArg (Some [100]) 4] = Throw /\
  order_args [[97]; [98]; [99]] [mkArg None 4] = Ok [4].
Proof. repeat split; vm_compute; reflexivity. Qed.
Theorem C84_udf_example :
  let f := mkUdf [102] [([97], UScalar 1); ([98], UMatrix None)] 0 true in
  let g := mkUdf [102] [([97], UScalar 2); ([98], UMatrix None)] 1 true in
  consistent [f; g] [102] [[97]; [98]] /\
  call_expr (fun _ => None) [f; g] [102] [mkArg (Some [98]) (7, UMatrix (Some 3)); mkArg (Some [97]) (8, UScalar 2)] = Ok (CUdf g, [(8, UScalar 2); (7, UMatrix (Some 3))]) /\
  call_expr (fun _ => None) [f; g] [102] [mkArg None (8, UUnknown); mkArg None (7, UMatrix (Some 3))] = Ok (CUdf f, [(8, UUnknown); (7, UMatrix (Some 3))]).
Proof.
  cbn zeta. split; [|split; vm_compute; reflexivity]. split; [eexists; split; [left|split; reflexivity]|].
  intros u Hu _ _. rewrite !elem_of_cons in Hu. destruct Hu as [->|[->|Hu]]; [split; reflexivity|split; reflexivity|apply elem_of_nil in Hu as []].
Qed.

Print Assumptions C84_order.
Print Assumptions C84_keyword_order.
Print Assumptions C84_positional.
Print Assumptions C84_named.
Print Assumptions C84_udf.
Print Assumptions C84_udf_arity.
Print Assumptions C84_hides.
Print Assumptions C84_builtin.
Print Assumptions C84_overload_refuted.
Print Assumptions C84_recursion_refuted.
Print Assumptions C84_cast_refuted.
Print Assumptions C84_specific_refuted.
Print Assumptions C84_map.
Print Assumptions C84_map_refuted.
