(** C74: scripts that DaphneLib generates *)
From stdpp Require Import base numbers list strings relations.
From Coq Require Import Lia ZArith.
From Verif Require Import CppBase CsvModel Csv PyModel PySpec PyProofs PyCtlProofs PyTopProofs PyClear.

(** The value that compute() returns is the value of the node. *)
Theorem C74_compute_returns_node_value {V : Type} (lit : string -> V) (app : string -> list V -> V) (appm : string -> nat -> list V -> V) (upd : V -> V -> list V -> V)
    (truth : V -> bool) (range : V -> V -> option V -> list V) (bound : nat) (G : graph) rank home root fuel :
  wf_graph G rank home -> exclusive G home -> no_swap G -> final G home root -> terminates G lit app appm upd truth range bound -> rank root < fuel ->
  exists r st e v, compute_script G fuel root noname = Some (r, st) /\ execs lit app appm upd truth range bound emptyenv (g_code st) = Some e /\ evalr lit e r = Some v /\
    node_value lit app appm upd truth range bound G root v.
Proof.
  intros Hwf Hex Hsw (Hh & (rd & Hrd & Hval) & F1 & F2 & F3) Hterm Hr.
  destruct (top_dfs lit app appm upd truth range bound G rank home Hwf Hsw Hex Hterm fuel root (mkG noname (fun _ => 0) 0 []) emptyenv) as (r & st & e & E & HS & HR & _ & _ & HE & c & Hc & Hx); [by exists rd|done|done| | |].
  { split; [done|]. split; [done|]. split; [done|]. split; [done|]. done. }
  { split; [done|]. intros L ld n i x _ HL. done. }
  inversion HR as [|a1 r1 a3 a4 Hr1 _]; subst. destruct Hr1 as (x & Hxn & ->).
  destruct (proj1 HE root rd x Hrd Hval Hh Hxn) as (v & Hv & Hav).
  { intros [(l & Hl & _)|[(L & i & Hu & _)|(L & Hcn & _)]]; [by apply (F1 l)|by apply (F2 L i)|by apply (F3 L)]. }
  exists (RV x), st, e, v. split; [done|]. cbn in Hc. split; [by rewrite Hc|]. split; [done|]. exists (S (rank root)). intros fu Hfu. apply Hav. cbn. lia.
Qed.

(** Different variables have different names. *)
Definition is_name (x : var) : Prop := match v_pre x with None => True | Some (p, _) => p = CL \/ p = CC end.
Lemma dec_chars k c : c ∈ dec k -> is_digit c = true.
Proof.
  unfold dec, print_dec. rewrite (proj2 (Z.ltb_ge _ _)) by lia. intros Hc. pose proof (print_dec_chars (Z.of_nat k) c) as H. unfold print_dec in H. rewrite (proj2 (Z.ltb_ge _ _)) in H by lia. destruct (H Hc) as [->|]; [|done].
  assert (Hn : forall fuel n acc, (0 <= n)%Z -> 45 ∈ dec_digits fuel n acc -> 45 ∈ acc).
  { clear. induction fuel as [|f IH]; intros n acc Hn Hc; [done|]. cbn [dec_digits] in Hc. destruct (n <? 10)%Z; [|apply IH in Hc; [|apply Z.div_pos; lia]]; (apply elem_of_cons in Hc as [Hc|Hc]; [lia|done]). }
  apply Hn in Hc; [by apply elem_of_nil in Hc|lia].
Qed.
Lemma dec_val k : digits_val (dec k) 0 = Z.of_nat k.
Proof.
  unfold dec, print_dec. rewrite (proj2 (Z.ltb_ge _ _)) by lia.
  destruct (dec_digits_val (S (Z.to_nat (Z.log2 (Z.of_nat k)))) (Z.of_nat k) [] 0) as (j & _ & _ & _ & ->); [split; [lia|apply log2_fuel; lia]|]. cbn. lia.
Qed.
Definition nodigit (t : list byte) : Prop := match t with [] => True | c :: _ => is_digit c = false end.
Lemma digits_split (s1 s2 t1 t2 : list byte) : (forall c, c ∈ s1 -> is_digit c = true) -> (forall c, c ∈ s2 -> is_digit c = true) -> nodigit t1 -> nodigit t2 -> s1 ++ t1 = s2 ++ t2 -> s1 = s2 /\ t1 = t2.
Proof.
  revert s2. induction s1 as [|c s1 IH]; intros s2 H1 H2 N1 N2 E.
  - destruct s2 as [|c2 s2]; [done|]. cbn in E. subst t1. cbn in N1. rewrite (H2 c2 ltac:(left)) in N1. done.
  - destruct s2 as [|c2 s2]; cbn in E.
    + subst t2. cbn in N2. rewrite (H1 c ltac:(left)) in N2. done.
    + injection E as -> E. destruct (IH s2) as (-> & ->); try done; intros d Hd; [apply H1|apply H2]; by right.
Qed.
Lemma dec_split a b t1 t2 : nodigit t1 -> nodigit t2 -> dec a ++ t1 = dec b ++ t2 -> a = b /\ t1 = t2.
Proof.
  intros N1 N2 E. apply digits_split in E as (E & ->); [|apply dec_chars|apply dec_chars|done|done]. split; [|done]. apply (f_equal (fun s => digits_val s 0)) in E. rewrite !dec_val in E. lia.
Qed.
Theorem C74_names_distinct x y : is_name x -> is_name y -> render x = render y -> x = y.
Proof.
  destruct x as [p n i], y as [p' n' i']. unfold is_name, render. cbn [v_pre v_num v_idx]. intros Hx Hy E.
  assert (Hbase : forall n i n' i', CV :: dec n ++ match i with None => [] | Some i => US :: dec i end = CV :: dec n' ++ match i' with None => [] | Some i => US :: dec i end -> n = n' /\ i = i').
  { clear. intros n i n' i' [= E]. apply dec_split in E as (-> & E); [|by destruct i|by destruct i']. split; [done|]. destruct i as [i|], i' as [i'|]; try done. injection E as E. rewrite <- (app_nil_r (dec i)), <- (app_nil_r (dec i')) in E. apply dec_split in E as (-> & _); done. }
  destruct p as [[p l]|], p' as [[p' l']|]; cbn [app] in E.
  - injection E as -> E. rewrite <- !app_assoc in E. apply dec_split in E as (-> & E); [|done|done]. cbn [app] in E. apply (f_equal (drop 1)) in E. cbn [drop] in E. apply Hbase in E as (-> & ->). done.
  - injection E as -> E. destruct Hx; done.
  - injection E as <- E. destruct Hy; done.
  - apply Hbase in E as (-> & ->). done.
Qed.

(** After compute() the names of all nodes that took part are removed, so that the next compute() starts anew; ... *)
Theorem C74_clear_removes_names G rank home fuel fuel' root r st : wf_graph G rank home -> compute_script G fuel root noname = Some (r, st) -> rank root < fuel' ->
  exists names, clear G fuel' (N root) (g_name st) = Some names /\ forall m, reaches G root m -> names m = None.
Proof.
  intros Hwf E Hr. unfold compute_script in E.
  assert (Hroot : is_Some (G !! root)). { destruct fuel as [|f]; [done|]. cbn [dfs] in E. by destruct (G !! root). }
  destruct (dfs_good G rank home Hwf fuel None _ _ _ _ E) as ((_ & Hcl) & Hn). specialize (Hn root eq_refl). cbn [g_name] in Hcl. specialize (Hcl ltac:(intros n c H; done)).
  destruct (clear_ok G rank home Hwf fuel' (N root) (g_name st) Hr Hroot) as (names & Ec & (_ & C2) & Hc). exists names. split; [done|]. specialize (Hc root eq_refl).
  intros m Hm. clear E Ec Hr Hroot. assert (Hboth : g_name st m <> None /\ names m = None); [|by apply Hboth]. revert Hn Hc. induction Hm as [x|x y z Hxy Hyz IH]; intros Hn Hc; [done|]. apply IH; [by apply (Hcl x)|by apply (C2 x)].
Qed.
(** ... but not if the execution fails: then the next compute() of the same node gives an empty script, in which the result is not defined. *)
Theorem C74_compute_after_failure_refuted {V : Type} (lit : string -> V) G rank home fuel root r st : wf_graph G rank home -> compute_script G fuel root noname = Some (r, st) ->
  exists x st', compute_script G fuel root (g_name st) = Some (RV x, st') /\ g_code st' = [] /\ evalr lit emptyenv (RV x) = None.
Proof.
  intros Hwf E. unfold compute_script in *. destruct (dfs_good G rank home Hwf fuel None _ _ _ _ E) as (_ & Hn). specialize (Hn root eq_refl).
  destruct fuel as [|f]; [done|]. cbn [dfs] in *. destruct (G !! root) as [nd|]; [|done]. cbn [mbind option_bind g_name] in *. destruct (g_name st root) as [x|]; [|done].
  eexists x, _. split; [done|]. done.
Qed.

(** Assignment to a part of a matrix gives all consumers the old value if each has the matrix as its first input (and only once); ... *)
Theorem C74_setitem_consumers self new H cons fresh fuel : NoDup cons -> (forall c, c ∈ cons -> exists rest, p_args (H c) = N self :: rest) -> length cons < fuel ->
  exists H', redirect fuel self new H cons 0 fresh = Some (H', cons) /\ (forall c, c ∈ cons -> p_args (H' c) = N new :: tail (p_args (H c))) /\ (forall c, c ∉ cons -> H' c = H c).
Proof.
  intros Hnd Hall Hf. destruct (redirect_all fuel self new H cons 0 fresh Hnd) as (H' & E & A & B); [|lia|].
  - intros j c _ Hc. apply Hall. by apply (elem_of_list_lookup_2 _ j).
  - exists H'. split; [done|]. split.
    + intros c [j Hj]%elem_of_list_lookup. apply (A j); [lia|done].
    + intros c Hc. apply B. intros j _ Hj. apply Hc. by apply (elem_of_list_lookup_2 _ j).
Qed.
(** ... it never ends if the first input of some consumer is another node (B * A; A\[0, 0\] = 5), ... *)
Theorem C74_setitem_hangs_refuted self new H cons fresh c a rest : new <> self -> (forall m, m ∈ cons -> m < fresh) -> c ∈ cons -> p_args (H c) = N a :: rest -> a <> self ->
  forall fuel, redirect fuel self new H cons 0 fresh = None.
Proof. intros Hns Hfr [j Hj]%elem_of_list_lookup Ha Has fuel. by apply (redirect_hangs fuel self new H cons 0 fresh j c a rest); [done|lia|..]. Qed.
(** ... and if the first input is a Python value, then the matrix replaces this value (5 * A). *)
Theorem C74_setitem_literal_refuted self new H c fresh t rest : c < fresh -> p_args (H c) = Lit t :: rest ->
  exists H' cons, redirect 3 self new H [c] 0 fresh = Some (H', cons) /\ p_args (H' c) = N new :: rest.
Proof.
  intros Hlt Ha. cbn [redirect lookup list_lookup]. rewrite Ha. rewrite decide_False by done. cbn [app lookup list_lookup]. rewrite upn_eq. cbn [p_args].
  rewrite decide_True by done. eexists _, _. split; [done|]. rewrite !upn_ne by lia. by rewrite upn_eq.
Qed.

(** * Concrete programs, over the integers *)
Local Open Scope string_scope.
Definition zlit (t : string) : Z := match t with "0" => 0 | "1" => 1 | "2" => 2 | "3" => 3 | "5" => 5 | "7" => 7 | "10" => 10 | _ => 99 end%Z.
Definition zapp (op : string) (vs : list Z) : Z :=
  match vs with [] => zlit op | [a] => a | [a; b] => match op with "+" => (a + b) | "-" => (a - b) | "*" => (a * b) | "<" => if (a <? b) then 1 else 0 | _ => 0 end | _ => 0 end%Z.
Definition zappm (f : string) (i : nat) (vs : list Z) : Z := match vs with [a] => (a + Z.of_nat i)%Z | _ => 0%Z end.
Definition zupd (b w : Z) (idx : list Z) : Z := (b + w)%Z.
Definition ztruth (v : Z) : bool := negb (Z.eqb v 0).
Definition zrange (a b : Z) (s : option Z) : list Z := (fun k => (a + Z.of_nat k)%Z) <$> seq 0 (Z.to_nat (b - a + 1)).
Definition zrun (G : graph) (root : nat) : option Z :=
  p ← compute_script G 50 root noname; e ← execs zlit zapp zappm zupd ztruth zrange 100 emptyenv (g_code p.2); evalr zlit e p.1.
Definition zval (G : graph) (root : nat) : option Z := den zlit zapp zappm zupd ztruth zrange 100 G 50 nothing root.
Definition op (o : string) (l : list arg) : node := mkN (KOp o) l [] None.

(** A for-loop with an outer matrix, an assignment to a part and a function with two results *)
Definition GE : graph := [op "10" []; op "2" []; op "0" []; op "+" [N 0; N 2]; op "*" [N 3; N 1];
  mkN (KFor 1 [N 4]) [N 0; N 1] [Lit "1"; Lit "3"; Lit "None"; N 2] None; mkN KCopy [N 0] [] (Some 5);
  mkN KLeft [N 6; Lit "7"; Lit "0"; Lit "0"] [] None; mkN (KMulti "f" [9; 10]) [N 7] [] None; mkN (KOp "out") [] [] (Some 8); mkN (KOp "out") [] [] (Some 8); op "*" [N 9; N 10]].
Definition homeE (n : nat) : option (nat * nat) := match n with 3 | 4 => Some (5, 0) | _ => None end.

Ltac graph_case H n := do 12 (try destruct n as [|n]); cbn in H; try discriminate H; injection H as <-.
Ltac in_case H := cbn in H; repeat (apply elem_of_cons in H as [H|H]); try (by apply elem_of_nil in H); try discriminate H; try injection H as ->.
Lemma GE_wf : wf_graph GE id homeE.
Proof.
  constructor.
  - intros n nd c Hn Hc. graph_case Hn n; cbn in Hc; destruct Hc as [Hc|Hc]; try discriminate Hc; try (injection Hc as <-; cbn; unfold id; lia); in_case Hc; cbn; unfold id; lia.
  - intros n nd c Hn Hh Hc. graph_case Hn n; try discriminate Hh; in_case Hc; (split; [done|]; eexists; split; [done|exact I]).
  - intros n nd L p Hn Hh. graph_case Hn n; try discriminate Hh; injection Hh as <- <-; (split; [by eexists|]); (split; [done|]); intros c Hc; in_case Hc;
      first [left; reflexivity|right; eexists; split; [done|]; first [right; reflexivity|left; cbn; set_solver]].
  - intros L ld p outs c HL Hp Hc. graph_case HL L; cbn in Hp; try discriminate Hp. destruct p; [|discriminate Hp]. injection Hp as <-. in_case Hc. by left.
  - intros n nd o m Hn Hk Hs. graph_case Hn n; try discriminate Hs; try discriminate Hk; injection Hs as <-; (split; [done|]); (split; [done|]); eexists _, _, _; (split; [done|]); (split; [done|]); set_solver.
  - intros n nd Hn Hk. graph_case Hn n; try discriminate Hk. split; [done|]. split; [done|]. exists 5, 0, 0. split; [done|]. split; [done|]. eexists. split; [done|]. cbn. split; [done|]. split; [lia|done].
  - intros n nd Hn Hk. graph_case Hn n; try discriminate Hk. split; [done|]. split; [done|]. split; [done|]. eexists _, _, _. split; [done|]. set_solver.
  - intros n nd f outs Hn Hk. graph_case Hn n; try discriminate Hk. injection Hk as <- <-. split; [done|]. split; [done|]. split; [by apply (bool_decide_unpack _); vm_compute|].
    intros o Ho. in_case Ho; subst o; (split; [done|]); eexists _, _; split; done.
  - intros n nd Hn Hk. graph_case Hn n; try done. split; [done|]. split; [done|]. exists [0], [N 1]. split; [done|]. split; [done|]. split; [apply NoDup_singleton|]. split.
    + intros x Hx. in_case Hx. subst x. by apply (bool_decide_unpack _); vm_compute.
    + intros outs Ho. in_case Ho. by subst.
  - intros n nd nc outs Hn Hk. graph_case Hn n; try discriminate Hk. eexists _, _, _, _. split; [done|]. by apply (bool_decide_unpack _); vm_compute.
  - intros n nd nc th el Hn Hk. graph_case Hn n; discriminate Hk.
  - intros n nd Hn. graph_case Hn n; done.
Qed.
Lemma GE_updated L x i : updated_by GE L x i -> L = 5 /\ x = 0 /\ i = 0.
Proof. intros (nd & HL & Hc & Hi & Ha). graph_case HL L; try done. cbn in Hi. assert (i = 0) as -> by lia. by injection Ha as <-. Qed.
Lemma GE_counter L i : counter_of GE L i -> L = 5 /\ i = 2.
Proof. intros (nd & nc & outs & HL & Hk & Hi). graph_case HL L; try discriminate Hk. by injection Hi as <-. Qed.
Lemma GE_base l b : base_of GE l b -> l = 7 /\ b = 6.
Proof. intros (nd & HL & Hk & Hi). graph_case HL l; try discriminate Hk. by injection Hi as <-. Qed.
Lemma GE_exclusive : exclusive GE homeE.
Proof.
  split; [|split].
  - intros l b m [-> ->]%GE_base (nd & Hm & Hu). graph_case Hm m; cbn in Hu; try done; exfalso; revert Hu; by apply (bool_decide_unpack _); vm_compute.
  - intros L x i m md (-> & -> & ->)%GE_updated Hm' (nd & Hm & Hu). rewrite Hm' in Hm. injection Hm as ->.
    graph_case Hm' m; cbn in Hu; first [by left|by right; left|by right; right; eexists|exfalso; revert Hu; by apply (bool_decide_unpack _); vm_compute].
  - intros L i m [-> ->]%GE_counter (nd & Hm & Hu). graph_case Hm m; cbn in Hu; first [by left|by right; eexists|exfalso; revert Hu; by apply (bool_decide_unpack _); vm_compute].
Qed.
Lemma GE_no_swap : no_swap GE.
Proof. intros L ld outs i j x HL Ho Hi (-> & -> & ->)%GE_updated. cbn in HL. injection HL as <-. in_case Ho. subst outs. destruct i; [lia|]. by destruct i. Qed.
Lemma GE_final : final GE homeE 11.
Proof.
  split; [done|]. split; [eexists; by split|]. split; [by intros l [_ ?]%GE_base|]. split; [by intros L i (_ & ? & _)%GE_updated|by intros L [_ ?]%GE_counter].
Qed.
Lemma GE_terminates : terminates GE zlit zapp zappm zupd ztruth zrange 100.
Proof.
  intros L ld HL Hc. graph_case HL L; try done. exists 10, [102%Z]. intros fuel Hf. replace fuel with (10 + (fuel - 10)) by lia. generalize (fuel - 10); clear; intros k. vm_compute. reflexivity.
Qed.
(** The hypotheses are satisfiable, by a program with a loop, an assignment to a part, and a function with two results. *)
Theorem C74_example : exists rank home, wf_graph GE rank home /\ exclusive GE home /\ no_swap GE /\ final GE home 11 /\ terminates GE zlit zapp zappm zupd ztruth zrange 100 /\ zrun GE 11 = Some 11990%Z /\ zval GE 11 = Some 11990%Z.
Proof.
  exists id, homeE. split; [apply GE_wf|]. split; [apply GE_exclusive|]. split; [apply GE_no_swap|]. split; [apply GE_final|]. split; [apply GE_terminates|]. split; vm_compute; reflexivity.
Qed.

(** * Where the result is another one *)
(** A matrix is changed in place although it is used elsewhere: X = m; X\[0,0\] = 5 changes what m is. *)
Definition G1 : graph := [op "10" []; mkN KLeft [N 0; Lit "5"; Lit "0"; Lit "0"] [] None; op "sum" [N 0]; op "+" [N 1; N 2]].
Theorem C74_assign_part_refuted : zrun G1 3 = Some 30%Z /\ zval G1 3 = Some 25%Z.
Proof. split; vm_compute; reflexivity. Qed.
(** The inputs of a loop are changed in place. *)
Definition G2 : graph := [op "10" []; op "0" []; op "+" [N 0; Lit "1"]; mkN (KFor 1 [N 2]) [N 0] [Lit "1"; Lit "3"; Lit "None"; N 1] None; mkN KCopy [N 0] [] (Some 3); op "-" [N 4; N 0]].
Theorem C74_loop_input_refuted : zrun G2 5 = Some 0%Z /\ zval G2 5 = Some 3%Z.
Proof. split; vm_compute; reflexivity. Qed.
(** A callback that swaps two matrices: lambda a, b, i: (b, a). *)
Definition G3 : graph := [op "10" []; op "2" []; op "0" []; mkN (KFor 2 [N 1; N 0]) [N 0; N 1] [Lit "1"; Lit "1"; Lit "None"; N 2] None; mkN KCopy [N 0] [] (Some 3); mkN KCopy [N 1] [] (Some 3); op "-" [N 4; N 5]].
Theorem C74_swap_refuted : zrun G3 6 = Some 0%Z /\ zval G3 6 = Some (-8)%Z.
Proof. split; vm_compute; reflexivity. Qed.
(** Three nested loops: the variables of the innermost body have the same names as those of the body around it. *)
Definition G4 : graph := [op "1" []; op "0" [];
  op "+" [N 0; Lit "1"]; op "0" []; (* in the outer loop *)
  op "+" [N 2; Lit "5"]; op "*" [N 2; Lit "2"]; op "0" []; (* in the middle loop *)
  op "+" [N 5; Lit "10"]; (* in the inner loop *)
  mkN (KFor 1 [N 7]) [N 5] [Lit "1"; Lit "1"; Lit "None"; N 6] None; mkN KCopy [N 5] [] (Some 8); op "-" [N 4; N 9];
  mkN (KFor 1 [N 10]) [N 2] [Lit "1"; Lit "1"; Lit "None"; N 3] None; mkN KCopy [N 2] [] (Some 11);
  mkN (KFor 1 [N 12]) [N 0] [Lit "1"; Lit "1"; Lit "None"; N 1] None; mkN KCopy [N 0] [] (Some 13)].
Theorem C74_nested_refuted : zrun G4 14 = Some 0%Z /\ zval G4 14 = Some (-7)%Z.
Proof. split; vm_compute; reflexivity. Qed.

Print Assumptions C74_compute_returns_node_value.
Print Assumptions C74_names_distinct.
Print Assumptions C74_clear_removes_names.
Print Assumptions C74_compute_after_failure_refuted.
Print Assumptions C74_setitem_consumers.
Print Assumptions C74_setitem_hangs_refuted.
Print Assumptions C74_setitem_literal_refuted.
Print Assumptions C74_example.
Print Assumptions C74_assign_part_refuted.
Print Assumptions C74_loop_input_refuted.
Print Assumptions C74_swap_refuted.
Print Assumptions C74_nested_refuted.
