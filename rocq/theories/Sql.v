(** C69: what SQL queries return. *)
From stdpp Require Import base numbers sorting list strings.
From Coq Require Import Ascii.
From Verif Require Import CppBase OrderSpec SqlSyntax SqlModel SqlSpec SqlSort SqlNames SqlRows SqlVisit SqlTables SqlQuery SqlSelect SqlGroup SqlAnswer.
Local Open Scope string_scope.
Local Open Scope list_scope.
Local Open Scope nat_scope.

(** Every well-formed query runs and returns the columns and the rows that it denotes: the product of the tables, restricted by the joins
    and WHERE, grouped, restricted by HAVING, ordered, with the selected expressions, without duplicates if it says DISTINCT. *)
Theorem C69_query_answer {V} (O : ops V) (db : list (string * frame V)) (q : query V) :
  weak_order (vlt O) -> well_formed db q -> exists ls rows, run_sql O db q = Ok (mkFrame ls rows) /\ answer O db q ls rows.
Proof. intros W. by apply sql_answer. Qed.

(** * Concrete cases: numbers *)
Definition of_bool (b : bool) : nat := if b then 1 else 0.
Definition nops : ops nat :=
  mkOps (fun op a b => match op with
                       | BMul => a * b | BDiv => a / b | BAdd => a + b | BSub => a - b | BEq => of_bool (a =? b) | BNe | BBang => of_bool (negb (a =? b))
                       | BLt => of_bool (a <? b) | BLe => of_bool (a <=? b) | BGt => of_bool (b <? a) | BGe => of_bool (b <=? a)
                       | BAnd => of_bool (negb (a =? 0) && negb (b =? 0)) | BOr => of_bool (negb (a =? 0) || negb (b =? 0)) end)
        (fun v => negb (v =? 0)) Nat.ltb
        (fun f l => match f with Count => length l | Sum => foldr Nat.add 0 l | Min => foldr Nat.min 1000 l | Max => foldr Nat.max 0 l | Avg => foldr Nat.add 0 l / length l end).
Lemma nat_weak : weak_order (vlt nops).
Proof.
  cbn. split; [|split].
  - intros x. apply Nat.ltb_irrefl.
  - intros x y z H1%Nat.ltb_lt H2%Nat.ltb_lt. apply Nat.ltb_lt. lia.
  - intros x y z H%Nat.ltb_lt. destruct (Nat.ltb_spec x y); [by left|]. right. apply Nat.ltb_lt. lia.
Qed.
Definition tabT : frame nat := mkFrame ["a"; "b"] [[1; 10]; [2; 20]; [1; 30]; [3; 5]].
Definition tabU : frame nat := mkFrame ["x.a"; "c"] [[1; 7]; [3; 8]].
Definition ndb : list (string * frame nat) := [("t", tabT); ("u", tabU)].
Definition col (f c : string) : expr nat := EIdent (Some f) c.
Definition num (t : string) (v : nat) : expr nat := ELit t v.

(** SELECT p.a, p.b + v.c AS s FROM t AS p JOIN u AS v ON p.a = v.a WHERE p.b < 25 ORDER BY p.b DESC *)
Definition q_join : query nat :=
  mkQuery false (col "p" "a", None) [(EBin BAdd (col "p" "b") (col "v" "c"), Some "s")] ("t", Some "p") [] [mkJoin ("u", Some "v") ((Some "p", "a"), BEq, (Some "v", "a")) []]
    (Some (EBin BLt (col "p" "b") (num "25" 25))) None (Some [((Some "p", "b"), false)]).
(** SELECT p.a, sum(p.b + 1) AS s FROM t AS p GROUP BY p.a HAVING sum(p.b) > 5 ORDER BY p.a DESC *)
Definition q_grp : query nat :=
  mkQuery false (col "p" "a", None) [(EAgg "sum" (EBin BAdd (col "p" "b") (num "1" 1)), Some "s")] ("t", Some "p") [] [] None
    (Some ((Some "p", "a"), [], Some (EBin BGt (EAgg "sum" (col "p" "b")) (num "5" 5)))) (Some [((Some "p", "a"), false)]).
(** SELECT DISTINCT t.a FROM t, u *)
Definition q_dist : query nat := mkQuery true (col "t" "a", None) [] ("t", None) [("u", None)] [] None None None.
(** SELECT max(t.b) FROM t *)
Definition q_tot : query nat := mkQuery false (EAgg "max" (col "t" "b"), None) [] ("t", None) [] [] None None None.

Lemma good_T r : fst r = "t" -> identifier (ref_alias r) -> good_table ndb r.
Proof.
  destruct r as [n a]. cbn [fst]. intros -> H. split; [|split; [|done]].
  - exists tabT. split; [done|]. split; [done|]. by repeat constructor.
  - cbn. apply (bool_decide_unpack _). vm_compute. exact I.
Qed.
Lemma good_U r : fst r = "u" -> identifier (ref_alias r) -> good_table ndb r.
Proof.
  destruct r as [n a]. cbn [fst]. intros -> H. split; [|split; [|done]].
  - exists tabU. split; [done|]. split; [done|]. by repeat constructor.
  - cbn. apply (bool_decide_unpack _). vm_compute. exact I.
Qed.
Ltac is_identifier := split; [discriminate|reflexivity].
Ltac scoped := eexists _, _; split; [reflexivity|]; split; [is_identifier|]; split; [reflexivity|]; apply (bool_decide_unpack _); vm_compute; exact I.
Ltac is_literal := eexists "", _; split; [reflexivity|discriminate].
Ltac distinct := apply (bool_decide_unpack _); vm_compute; exact I.

Lemma q_join_formed : well_formed ndb q_join.
Proof.
  split; [|split; [|split; [|split]]].
  - cbn [refs q_from q_froms q_joins q_join app map j_ref good_refs]. split; [apply good_T; [done|is_identifier]|]. split; [constructor|]. split; [apply good_U; [done|is_identifier]|]. split; [|done]. apply Forall_singleton. done.
  - split; [|done]. apply Forall_singleton. cbn. split; [scoped|]. split; [|scoped]. eexists. split; [done|]. by left.
  - intros e [= <-]. split; [done|]. split; [scoped|]. exists "2", "5"%char. done.
  - distinct.
  - cbn. split; [|split; [done|]].
    + apply Forall_singleton. cbn. scoped.
    + apply Forall_cons. split; [scoped|]. apply Forall_singleton. split; [done|]. split; scoped.
Qed.
Lemma q_grp_formed : well_formed ndb q_grp.
Proof.
  split; [|split; [|split; [|split]]].
  - cbn [refs q_from q_froms q_joins q_grp app map j_ref good_refs]. split; [apply good_T; [done|is_identifier]|]. split; [constructor|done].
  - done.
  - done.
  - distinct.
  - cbn. split; [apply Forall_singleton; scoped|]. split; [distinct|]. split; [apply Forall_singleton; intros [t H]; done|]. split; [|split; [|split; [|done]]].
    + intros e [= <-]. split; [done|]. split; [|done]. split; [by eexists|]. scoped.
    + apply Forall_cons. split; [by left|]. apply Forall_singleton. split; [by eexists|]. split; [done|]. split; [scoped|is_literal].
    + apply Forall_singleton. by left.
Qed.
Lemma q_dist_formed : well_formed ndb q_dist.
Proof.
  split; [|split; [|split; [|split]]].
  - cbn [refs q_from q_froms q_joins q_dist app map j_ref good_refs]. split; [apply good_T; [done|is_identifier]|]. split; [constructor|]. split; [apply good_U; [done|is_identifier]|]. split; [|done]. apply Forall_singleton. done.
  - done.
  - done.
  - distinct.
  - cbn. split; [constructor|]. split; [done|]. apply Forall_singleton. scoped.
Qed.
Lemma q_tot_formed : well_formed ndb q_tot.
Proof.
  split; [|split; [|split; [|split]]].
  - cbn [refs q_from q_froms q_joins q_tot app map j_ref good_refs]. split; [apply good_T; [done|is_identifier]|]. split; [constructor|done].
  - done.
  - done.
  - distinct.
  - cbn. split; [constructor|]. split; [done|]. apply Forall_singleton. split; [|done]. split; [by eexists|]. split; [scoped|done].
Qed.
(** The theorem applies to these queries, and their results are as expected. *)
Theorem C69_query_answer_examples :
  (well_formed ndb q_join /\ run_sql nops ndb q_join = Ok (mkFrame ["p.a"; "s"] [[1; 17]; [3; 13]])) /\
  (well_formed ndb q_grp /\ run_sql nops ndb q_grp = Ok (mkFrame ["p.a"; "s"] [[2; 21]; [1; 42]])) /\
  (well_formed ndb q_dist /\ run_sql nops ndb q_dist = Ok (mkFrame ["t.a"] [[1]; [2]; [3]])) /\
  (well_formed ndb q_tot /\ run_sql nops ndb q_tot = Ok (mkFrame ["max(t.b)"] [[30]])).
Proof.
  split; [split; [apply q_join_formed|vm_compute; reflexivity]|]. split; [split; [apply q_grp_formed|vm_compute; reflexivity]|].
  split; [split; [apply q_dist_formed|vm_compute; reflexivity]|]. split; [apply q_tot_formed|vm_compute; reflexivity].
Qed.

(** * Where queries do not return what they denote *)
(** SELECT DISTINCT t.a FROM t GROUP BY t.a, t.b returns duplicates; with an aggregate it is rejected. *)
Theorem C69_distinct_group_refuted :
  (exists q ls rows, q_distinct q = true /\ run_sql nops ndb q = Ok (mkFrame ls rows) /\ ~ NoDup rows) /\
  (exists q, q_distinct q = true /\ run_sql nops ndb q = Throw /\
     exists ls rows, run_sql nops ndb (mkQuery false (q_item q) (q_items q) (q_from q) (q_froms q) (q_joins q) (q_where q) (q_group q) (q_order q)) = Ok (mkFrame ls rows) /\ NoDup rows).
Proof.
  split.
  - exists (mkQuery true (col "t" "a", None) [] ("t", None) [] [] None (Some ((Some "t", "a"), [(Some "t", "b")], None)) None), ["t.a"], [[1]; [1]; [2]; [3]]. split; [done|]. split; [vm_compute; reflexivity|].
    intros H. apply NoDup_cons in H as [H _]. apply H. left.
  - exists (mkQuery true (col "t" "a", None) [(EAgg "count" (col "t" "b"), None)] ("t", None) [] [] None (Some ((Some "t", "a"), [], None)) None). split; [done|]. split; [vm_compute; reflexivity|].
    exists ["t.a"; "count(t.b)"], [[1; 2]; [2; 1]; [3; 1]]. split; [vm_compute; reflexivity|]. distinct.
Qed.
(** SELECT DISTINCT t.a FROM t ORDER BY t.a DESC returns the rows in ascending order. *)
Theorem C69_distinct_order_refuted :
  exists q ls rows, q_distinct q = true /\ q_order q = Some [((Some "t", "a"), false)] /\ q_item q = (col "t" "a", None) /\ q_items q = [] /\ run_sql nops ndb q = Ok (mkFrame ls rows) /\ rows = [[1]; [2]; [3]].
Proof. exists (mkQuery true (col "t" "a", None) [] ("t", None) [] [] None None (Some [((Some "t", "a"), false)])), ["t.a"], [[1]; [2]; [3]]. do 4 (split; [done|]). split; [vm_compute; reflexivity|done]. Qed.
(** x BETWEEN l AND h also holds if h <= x <= l. *)
Theorem C69_between_refuted :
  exists q x l h, q_where q = Some (EBetween (col "t" "b") (num "15" l) (num "7" h)) /\ run_sql nops ndb q = Ok (mkFrame ["t.b"] [[x]]) /\ ~ (l <= x /\ x <= h).
Proof. exists (mkQuery false (col "t" "b", None) [] ("t", None) [] [] (Some (EBetween (col "t" "b") (num "15" 15) (num "7" 7))) None None), 10, 15, 7. split; [done|]. split; [vm_compute; reflexivity|lia]. Qed.
(** FROM t AS a, a AS b: the second table is t and not the registered table a. *)
Theorem C69_alias_shadows_refuted :
  exists q, q_from q = ("t", Some "a") /\ q_froms q = [("a", Some "b")] /\ q_item q = (EIdent (Some "b") "*", None) /\ q_items q = [] /\
    run_sql nops [("t", mkFrame ["x"] [[1]]); ("a", mkFrame ["x"] [[2]])] q = Ok (mkFrame ["b.x"] [[1]]).
Proof. exists (mkQuery false (EIdent (Some "b") "*", None) [] ("t", Some "a") [("a", Some "b")] [] None None None). do 4 (split; [done|]). vm_compute. reflexivity. Qed.
(** A table cannot be used without an alias behind a use with one, although it can be the other way round. *)
Theorem C69_table_twice_refuted :
  run_sql nops ndb (mkQuery false (EStar, None) [] ("t", Some "a") [("t", None)] [] None None None) = Throw /\
  exists f, run_sql nops ndb (mkQuery false (EStar, None) [] ("t", None) [("t", Some "a")] [] None None None) = Ok f /\ length (f_rows f) = 16.
Proof. split; [vm_compute; reflexivity|]. eexists. split; [vm_compute; reflexivity|done]. Qed.
(** A column named without its table is never found, even if there is only one table that has it. *)
Theorem C69_unqualified_refuted {V} (O : ops V) (db : list (string * frame V)) (q : query V) c aka :
  good_refs db [] (refs q) -> good_joins db (q_from q :: q_froms q) (q_joins q) -> (forall e, q_where q = Some e -> row_expr (scope db q) e) ->
  q_group q = None -> Forall (fun o => in_scope (scope db q) (fst o)) (orders q) -> q_item q = (EIdent None c, aka) -> identifier c -> run_sql O db q = Throw.
Proof.
  intros Hr Hj Hw Hq Ho Hi [Hne Hc]. unfold run_sql. destruct (visit_tables_ok O db q Hr Hj Hw) as (s & -> & HT). cbn [obind]. unfold visit_group. rewrite Hq. cbn [obind].
  destruct (visit_order_rows O db q s HT Ho) as (s1 & -> & HR & Hcg & Hgrp & _). cbn [obind]. rewrite Hi. unfold visit_item. cbn [fst visit]. unfold visit_ident. cbn [ident_text]. rewrite Hgrp, Hcg. cbn [andb negb].
  destruct (string_dec c "*"); [done|]. destruct (_ <? _)%nat; [done|]. rewrite (ends_dot_star_ids c Hc). unfold visit_ident_name. cbn [fst snd obind]. unfold extract_matrix, extract_col, behind_dot. rewrite (ids_no_dot c Hc).
  destruct (string_dec c "*"); [done|]. unfold col_idx. rewrite (rows_plain _ _ _ _ HR). cbn [f_labels]. rewrite index_none; [done|]. intros (p & d & E & Hp & _)%sl_elem; [|apply HR].
  pose proof (find_dot_app p d Hp) as H. rewrite <- E, (ids_no_dot c Hc) in H. done.
Qed.
(** a query that meets the hypotheses: SELECT a FROM t *)
Theorem C69_unqualified_example : run_sql nops ndb (mkQuery false (EIdent None "a", None) [] ("t", None) [] [] None None None) = Throw.
Proof.
  apply (C69_unqualified_refuted nops ndb _ "a" None); try done.
  - split; [apply good_T; [done|is_identifier]|]. split; [constructor|done].
  - constructor.
Qed.
(** SELECT *, sum(t.b) FROM t GROUP BY t.a is rejected, and SELECT * FROM t GROUP BY t.a returns the keys only. *)
Theorem C69_star_group_refuted :
  run_sql nops ndb (mkQuery false (EStar, None) [(EAgg "sum" (col "t" "b"), None)] ("t", None) [] [] None (Some ((Some "t", "a"), [], None)) None) = Throw /\
  run_sql nops ndb (mkQuery false (EStar, None) [] ("t", None) [] [] None (Some ((Some "t", "a"), [], None)) None) = Ok (mkFrame ["t.a"] [[1]; [2]; [3]]).
Proof. split; vm_compute; reflexivity. Qed.
(** An aggregate without columns, such as SELECT count(1) FROM t, dereferences a null pointer; with GROUP BY it works. *)
Theorem C69_count_one_refuted :
  run_sql nops ndb (mkQuery false (EAgg "count" (num "1" 1), None) [] ("t", None) [] [] None None None) = UB /\
  run_sql nops ndb (mkQuery false (EAgg "count" (num "1" 1), None) [] ("t", None) [] [] None (Some ((Some "t", "a"), [], None)) None) = Ok (mkFrame ["count(1)"] [[2]; [1]; [1]]).
Proof. split; vm_compute; reflexivity. Qed.
(** count(t.star) and count(star) are rejected, and so is a literal beside an aggregate of all rows. *)
Theorem C69_total_literal_refuted :
  run_sql nops ndb (mkQuery false (EAgg "count" EStar, None) [] ("t", None) [] [] None None None) = Throw /\
  run_sql nops ndb (mkQuery false (EAgg "count" (col "t" "a"), None) [(num "5" 5, None)] ("t", None) [] [] None None None) = Throw.
Proof. split; vm_compute; reflexivity. Qed.
(** != is rejected in WHERE but means <> in the condition of a join, and a comparison of a join without its operator dereferences a null pointer. *)
Theorem C69_bang_refuted :
  run_sql nops ndb (mkQuery false (col "t" "b", None) [] ("t", None) [] [] (Some (EBin BBang (col "t" "b") (num "5" 5))) None None) = Throw /\
  run_sql nops ndb (mkQuery false (col "t" "b", None) [] ("t", None) [] [mkJoin ("u", None) ((Some "t", "a"), BBang, (Some "u", "a")) []] None None None) = Ok (mkFrame ["t.b"] [[10]; [20]; [20]; [30]; [5]]) /\
  run_sql nops ndb (mkQuery false (col "t" "b", None) [] ("t", None) [] [mkJoin ("u", None) ((Some "t", "a"), BEq, (Some "u", "a")) [(Some "t", "b", None, (Some "u", "c"))]] None None None) = UB.
Proof. split; [|split]; vm_compute; reflexivity. Qed.
(** JOIN u ON u.a = t.a is rejected, although JOIN u ON t.a = u.a is not. *)
Theorem C69_join_sides_refuted :
  run_sql nops ndb (mkQuery false (col "t" "b", None) [] ("t", None) [] [mkJoin ("u", None) ((Some "u", "a"), BEq, (Some "t", "a")) []] None None None) = Throw /\
  run_sql nops ndb (mkQuery false (col "t" "b", None) [] ("t", None) [] [mkJoin ("u", None) ((Some "t", "a"), BEq, (Some "u", "a")) []] None None None) = Ok (mkFrame ["t.b"] [[10]; [30]; [5]]).
Proof. split; vm_compute; reflexivity. Qed.
(** An alias that begins like the labels of the translation collides with them. *)
Theorem C69_reserved_refuted :
  exists db q, run_sql nops db q = Throw /\ good_refs db [] (refs q) /\ Forall (in_scope (scope db q)) (keys q) /\ Forall (fun i => group_expr (scope db q) (keys q) (fst i)) (items q) /\ q_where q = None /\ q_order q = None /\ q_distinct q = false /\ NoDup (labels db q).
Proof.
  exists [("t", mkFrame ["b"] [[1]])],
    (mkQuery false (col "group_0_group_0_t" "b", None) [(EAgg "sum" (col "group_0_t" "b"), None)] ("t", Some "group_0_group_0_t") [("t", Some "group_0_t")] [] None (Some ((Some "group_0_group_0_t", "b"), [], None)) None).
  split; [vm_compute; reflexivity|]. split; [|split; [|split; [|split; [done|split; [done|split; [done|]]]]]].
  - assert (forall a, identifier a -> good_table [("t", mkFrame ["b"] [[1]])] ("t", Some a)) as Hg.
    { intros a Ha. split; [|split; [|done]]; [|distinct]. eexists. split; [reflexivity|]. split; [done|]. by repeat constructor. }
    split; [apply Hg; is_identifier|]. split; [constructor|]. split; [apply Hg; is_identifier|]. split; [|done]. apply Forall_singleton. done.
  - apply Forall_singleton. scoped.
  - apply Forall_cons. split; [by left|]. apply Forall_singleton. split; [by eexists|]. scoped.
  - distinct.
Qed.
Print Assumptions C69_query_answer.
