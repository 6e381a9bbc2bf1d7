(** The tables of a query: FROM, JOIN and WHERE. *)
From stdpp Require Import base numbers sorting list strings.
From Coq Require Import Ascii.
From Verif Require Import CppBase OrderSpec SqlSyntax SqlModel SqlSpec SqlSort SqlNames SqlRows SqlVisit.
Local Open Scope string_scope.
Local Open Scope list_scope.

Lemma ofilter_ok {A} (p : A -> outcome bool) (q : A -> bool) l : (forall x, x ∈ l -> p x = Ok (q x)) -> ofilter p l = Ok (filter (fun x => q x = true) l).
Proof.
  induction l as [|x l IH]; intros H; [done|]. cbn [ofilter]. rewrite H by left. cbn [obind]. rewrite IH by (intros y Hy; apply H; by right). cbn [obind]. rewrite filter_cons.
  by destruct (q x), (decide _).
Qed.
Lemma filter_and {A} (p q : A -> bool) (l : list A) : filter (fun x => q x = true) (filter (fun x => p x = true) l) = filter (fun x => p x && q x = true) l.
Proof.
  induction l as [|x l IH]; [done|]. rewrite !(filter_cons _ x). destruct (p x) eqn:Ep, (q x) eqn:Eq; cbn [andb]; repeat (case_decide; try done); rewrite ?filter_cons, ?Eq; repeat (case_decide; try done); congruence.
Qed.
Lemma filter_map {A B} (f : A -> B) (p : B -> bool) (l : list A) : filter (fun x => p x = true) (map f l) = map f (filter (fun x => p (f x) = true) l).
Proof. induction l as [|x l IH]; [done|]. cbn [map]. rewrite !filter_cons. destruct (decide (p (f x) = true)); cbn [map]; congruence. Qed.
Lemma filter_all {A} (p : A -> bool) (l : list A) : (forall x, p x = true) -> filter (fun x => p x = true) l = l.
Proof. intros H. induction l as [|x l IH]; [done|]. rewrite filter_cons, IH. by rewrite decide_True. Qed.
Lemma filter_ext_in {A} (p q : A -> bool) (l : list A) : (forall x, x ∈ l -> p x = q x) -> filter (fun x => p x = true) l = filter (fun x => q x = true) l.
Proof. induction l as [|x l IH]; intros H; [done|]. rewrite !filter_cons, IH by (intros y Hy; apply H; by right). by rewrite H by left. Qed.

Section tables.
  Context {V : Type} (O : ops V) (db : list (string * frame V)).
  Notation tuple := (@tuple V).
  Definition sc_of (rs : list tref) : list (string * list string) := map (fun r => (ref_alias r, columns db r)) rs.
  Record refs_in (rs : list tref) (s : @st V) : Prop := mkRefs {
    rf_prefix : forall r, r ∈ rs -> assoc (ref_alias r) (prefix s) = Some (ref_alias r);
    rf_alias : forall r, r ∈ rs -> is_Some (assoc (ref_alias r) (alias s));
    rf_frames : forall n f, assoc n (alias s) = Some f -> exists r, r ∈ rs /\ (n = fst r \/ n = ref_alias r) /\ assoc (fst r) db = Some f;
    rf_used : forall n p, assoc n (prefix s) = Some p -> p <> "" /\ exists r, r ∈ rs /\ (n = fst r \/ n = ref_alias r);
    rf_rev : forall n p, assoc n (rprefix s) = Some p -> exists r, r ∈ rs /\ n = ref_alias r }.
  Lemma sc_of_assoc rs f cs : assoc f (sc_of rs) = Some cs -> exists r, r ∈ rs /\ ref_alias r = f /\ columns db r = cs.
  Proof. intros H%assoc_some_in. apply elem_of_list_fmap in H as (r & [= -> ->] & Hr). eauto. Qed.
  Lemma refs_names rs s : refs_in rs s -> names_ok db (sc_of rs) s.
  Proof.
    intros [H1 H2 _ _ _] f cs (r & Hr & <- & _)%sc_of_assoc. split.
    - unfold has_frame. destruct (H2 r Hr) as [g ->]. done.
    - unfold fetch_str. by rewrite H1.
  Qed.
  Lemma refs_in_same rs s s' : alias s' = alias s -> prefix s' = prefix s -> rprefix s' = rprefix s -> refs_in rs s -> refs_in rs s'.
  Proof. intros E1 E2 E3 [H1 H2 H3 H4 H5]. constructor; rewrite ?E1, ?E2, ?E3; done. Qed.
  Lemma assoc_cons_eq {B} n (b : B) l : assoc n ((n, b) :: l) = Some b.
  Proof. cbn. by destruct (string_dec n n). Qed.
  Lemma assoc_cons_ne {B} n m (b : B) l : m <> n -> assoc n ((m, b) :: l) = assoc n l.
  Proof. intros H. cbn. by destruct (string_dec m n). Qed.
  Lemma set_names_names (s : @st V) a p r a' p' r' : set_names (set_names s a p r) a' p' r' = set_names s a' p' r'.
  Proof. done. Qed.

  Lemma set_prefix_new (s : @st V) name pre n i : fetch_str (prefix s) name = "" -> i = true \/ fetch_str (rprefix s) pre = "" ->
    set_frame_prefix s name pre n i = Ok (pre, set_names s (alias s) ((name, pre) :: prefix s) (if i then rprefix s else (pre, name) :: rprefix s)).
  Proof.
    intros H1 H2. unfold set_frame_prefix. destruct (string_dec _ _); [|done]. replace (negb (bool_decide (fetch_str (rprefix s) pre = "")) && negb i) with false; [done|].
    destruct H2 as [-> | ->]; [by rewrite andb_false_r|]. by rewrite bool_decide_eq_true_2.
  Qed.
  Lemma set_prefix_old (s : @st V) name pre i : fetch_str (prefix s) name <> "" -> set_frame_prefix s name pre false i = Ok ("", s).
  Proof. intros H1. unfold set_frame_prefix. by destruct (string_dec _ _). Qed.

  (** the state once a table is visited *)
  Lemma ref_step rs (s : @st V) r f : good_table db r -> fresh_ref rs r -> refs_in rs s -> assoc (fst r) db = Some f ->
    exists a p q, refs_in (rs ++ [r]) (set_names s a p q) /\
      (let s := set_names s ((fst r, f) :: alias s) (prefix s) (rprefix s) in
       let* p := (match snd r with
                  | Some aka => set_frame_prefix (set_names s ((aka, f) :: alias s) (prefix s) (rprefix s)) aka aka true false
                  | None => Ok (fst r, s)
                  end) in
       let* q := set_frame_prefix (snd p) (fst r) (fst p) (bool_decide (snd r = None)) (bool_decide (is_Some (snd r))) in
       let* g := set_labels_prefix f (fst p) in Ok (g, snd q)) = let* g := set_labels_prefix f (ref_alias r) in Ok (g, set_names s a p q).
  Proof.
    intros (_ & _ & [Hne _]) Hf HR Hdb. destruct HR as [H1 H2 H3 H4 H5]. unfold fresh_ref in Hf. rewrite Forall_forall in Hf.
    assert (assoc (ref_alias r) (prefix s) = None) as Np.
    { destruct (assoc _ (prefix s)) as [p|] eqn:E; [|done]. destruct (H4 _ _ E) as (_ & r' & Hr' & Hn). destruct (Hf r' Hr') as (Hf1 & Hf2 & _). destruct Hn; done. }
    assert (assoc (ref_alias r) (rprefix s) = None) as Nr.
    { destruct (assoc _ (rprefix s)) as [p|] eqn:E; [|done]. destruct (H5 _ _ E) as (r' & Hr' & Hn). destruct (Hf r' Hr') as (Hf1 & _). done. }
    assert (forall (P : tref -> Prop), (exists r', r' ∈ rs /\ P r') -> exists r', r' ∈ rs ++ [r] /\ P r') as Up by (intros P (r' & Hr' & HP); exists r'; split; [apply elem_of_app; by left|done]).
    assert (forall P : tref -> Prop, P r -> exists r', r' ∈ rs ++ [r] /\ P r') as Me by (intros P HP; exists r; split; [apply elem_of_app; right; by apply elem_of_list_singleton|done]).
    destruct r as [name [aka|]]; cbn [ref_alias fst snd] in *.
    - set (p1 := (aka, aka) :: prefix s).
      assert (forall n, fetch_str p1 n = "" -> n <> aka /\ assoc n (prefix s) = None) as Hfe.
      { intros n. unfold fetch_str, p1. destruct (string_dec aka n) as [->|Hn]; [by rewrite assoc_cons_eq|]. rewrite assoc_cons_ne by done. destruct (assoc n (prefix s)) as [p|] eqn:E; [|done].
        intros ->. by destruct (H4 _ _ E). }
      exists ((aka, f) :: (name, f) :: alias s), (if string_dec (fetch_str p1 name) "" then (name, aka) :: p1 else p1), ((aka, aka) :: rprefix s). split.
      + constructor; cbn [prefix alias rprefix set_names].
        * assert (forall r', r' ∈ rs ++ [(name, Some aka)] -> assoc (ref_alias r') p1 = Some (ref_alias r')) as Hp1.
          { intros r' [Hr'| ->%elem_of_list_singleton]%elem_of_app; [|apply assoc_cons_eq]. unfold p1. rewrite assoc_cons_ne; [auto|]. by destruct (Hf r' Hr'). }
          intros r' Hr'. specialize (Hp1 r' Hr'). destruct (string_dec _ _) as [E|_]; [|done]. rewrite assoc_cons_ne; [done|]. intros ->. apply Hfe in E as [Ha E]. unfold p1 in Hp1. rewrite assoc_cons_ne in Hp1; [congruence|done].
        * intros r' Hr'. destruct (string_dec aka (ref_alias r')) as [->|Hn]; [by rewrite assoc_cons_eq|]. rewrite assoc_cons_ne by done.
          destruct (string_dec name (ref_alias r')) as [->|Hn']; [by rewrite assoc_cons_eq|]. rewrite assoc_cons_ne by done. apply elem_of_app in Hr' as [Hr'| ->%elem_of_list_singleton]; [auto|]. by destruct Hn.
        * intros n g E. destruct (string_dec aka n) as [->|Hn]; [rewrite assoc_cons_eq in E; injection E as <-; apply Me; cbn; auto|]. rewrite assoc_cons_ne in E by done.
          destruct (string_dec name n) as [->|Hn']; [rewrite assoc_cons_eq in E; injection E as <-; apply Me; cbn; auto|]. rewrite assoc_cons_ne in E by done. by apply Up, H3.
        * assert (forall n p, assoc n p1 = Some p -> p <> "" /\ exists r', r' ∈ rs ++ [(name, Some aka)] /\ (n = fst r' \/ n = ref_alias r')) as Hp1.
          { intros n p E. unfold p1 in E. destruct (string_dec aka n) as [->|Hn]; [rewrite assoc_cons_eq in E; injection E as <-; split; [done|]; apply Me; cbn; auto|]. rewrite assoc_cons_ne in E by done.
            destruct (H4 _ _ E) as [? H]. split; [done|]. by apply Up. }
          intros n p E. destruct (string_dec (fetch_str p1 name) ""); [|auto]. destruct (string_dec name n) as [->|Hn]; [rewrite assoc_cons_eq in E; injection E as <-; split; [done|]; apply Me; cbn; auto|]. rewrite assoc_cons_ne in E by done. auto.
        * intros n p E. destruct (string_dec aka n) as [->|Hn]; [apply Me; done|]. rewrite assoc_cons_ne in E by done. eapply Up, H5, E.
      + cbn zeta. rewrite set_names_names. cbn [alias prefix rprefix set_names]. rewrite set_prefix_new; [|by unfold fetch_str; cbn; rewrite Np|right; by unfold fetch_str; cbn; rewrite Nr]. cbn [obind fst snd alias prefix rprefix set_names]. fold p1.
        rewrite (bool_decide_eq_false_2 (Some aka = None)) by done. rewrite (bool_decide_eq_true_2 (is_Some (Some aka))) by (by eexists).
        destruct (string_dec (fetch_str p1 name) "") as [E|E]; [rewrite set_prefix_new; [done|exact E|by left]|]. by rewrite set_prefix_old.
    - exists ((name, f) :: alias s), ((name, name) :: prefix s), ((name, name) :: rprefix s). split.
      + constructor; cbn [prefix alias rprefix set_names].
        * intros r' [Hr'| ->%elem_of_list_singleton]%elem_of_app; [|apply assoc_cons_eq]. rewrite assoc_cons_ne; [auto|]. by destruct (Hf r' Hr').
        * intros r' Hr'. destruct (string_dec name (ref_alias r')) as [->|Hn]; [by rewrite assoc_cons_eq|]. rewrite assoc_cons_ne by done. apply elem_of_app in Hr' as [Hr'| ->%elem_of_list_singleton]; [auto|]. by destruct Hn.
        * intros n g E. destruct (string_dec name n) as [->|Hn]; [rewrite assoc_cons_eq in E; injection E as <-; apply Me; cbn; auto|]. rewrite assoc_cons_ne in E by done. by apply Up, H3.
        * intros n p E. destruct (string_dec name n) as [->|Hn]; [rewrite assoc_cons_eq in E; injection E as <-; split; [done|]; apply Me; cbn; auto|]. rewrite assoc_cons_ne in E by done.
          destruct (H4 _ _ E) as [? H]. split; [done|]. by apply Up.
        * intros n p E. destruct (string_dec name n) as [->|Hn]; [apply Me; done|]. rewrite assoc_cons_ne in E by done. eapply Up, H5, E.
      + cbn zeta. cbn [obind fst snd]. rewrite (bool_decide_eq_false_2 (is_Some None)) by (intros [? [=]]).
        rewrite set_prefix_new; [done|by unfold fetch_str; cbn; rewrite Np|right; by unfold fetch_str; cbn; rewrite Nr].
  Qed.
  Lemma columns_nodup r : good_table db r -> NoDup (columns db r). Proof. by intros (_ & H & _). Qed.
  Lemma sl_single a cs : sl [(a, cs)] = map (fun c => ident_text (Some a) c) cs.
  Proof. unfold sl. cbn. by rewrite app_nil_r. Qed.
  Lemma tuples_shape r : good_table db r -> Forall (shape (sc_of [r])) (tuples db r).
  Proof.
    intros ((f & Hf & _ & Hl) & _ & _). unfold tuples. apply Forall_fmap. unfold table. rewrite Hf. eapply Forall_impl; [exact Hl|]. cbn. intros row Hrow. unfold shape. cbn. do 2 f_equal.
    rewrite fst_zip; [done|]. unfold columns, table. rewrite Hf, map_length. lia.
  Qed.
  Lemma visit_ref_ok rs s r : good_table db r -> fresh_ref rs r -> refs_in rs s ->
    exists a p q, visit_ref db r s = Ok (mkFrame (sl (sc_of [r])) (map flat (tuples db r)), set_names s a p q) /\ refs_in (rs ++ [r]) (set_names s a p q).
  Proof.
    intros Ht Hf HR. pose proof Ht as ((f & Hdb & _ & Hl) & Hnd & [_ Hid]). destruct (ref_step rs s r f Ht Hf HR Hdb) as (a & p & q & HR' & E). exists a, p, q. split; [|done].
    unfold visit_ref. assert (fetch_frame db s (fst r) = Ok f) as ->.
    { unfold fetch_frame. destruct (assoc (fst r) (alias s)) as [g|] eqn:Eg; [|by rewrite Hdb]. f_equal. destruct (rf_frames _ _ HR _ _ Eg) as (r' & Hr' & Hn & Hg).
      unfold fresh_ref in Hf. rewrite Forall_forall in Hf. destruct (Hf r' Hr') as (_ & _ & Hf3). assert (fst r = fst r') as En by (destruct Hn; auto). rewrite <- En in Hg. congruence. }
    cbn [obind]. cbn zeta in E |- *. etransitivity; [exact E|]. unfold set_labels_prefix.
    assert (map (set_prefix (ref_alias r)) (f_labels f) = sl (sc_of [r])) as ->.
    { change (sc_of [r]) with [(ref_alias r, columns db r)]. rewrite sl_single. unfold columns, table. rewrite Hdb, map_map. apply map_ext. intros l. by rewrite set_prefix_eq. }
    assert (NoDup (sl (sc_of [r]))) as Hn. { change (sc_of [r]) with [(ref_alias r, columns db r)]. rewrite sl_single. apply NoDup_fmap_2_strong; [|done]. intros c d _ _ E'. by apply dot_inj in E' as [_ ?]. }
    unfold make_frame. rewrite decide_True by done. cbn [obind]. do 3 f_equal. unfold tuples, table. rewrite Hdb, map_map. rewrite <- (map_id (f_rows f)) at 1. apply map_ext_in. intros row Hrow%elem_of_list_In.
    rewrite Forall_forall in Hl. unfold flat. cbn. rewrite app_nil_r. symmetry. apply snd_zip. rewrite (Hl row Hrow). unfold columns, table. by rewrite Hdb, map_length.
  Qed.

  (** * Products *)
  Definition pairs {A B} (l : list A) (k : list B) : list (A * B) := x ← l; map (fun y => (x, y)) k.
  Lemma pairs_map {A B C D} (f : A -> C) (g : B -> D) l k : (x ← map f l; map (fun y => (x, y)) (map g k)) = map (fun p => (f (fst p), g (snd p))) (pairs l k).
  Proof. induction l as [|x l IH]; [done|]. cbn [map]. unfold pairs in *. rewrite !bind_cons, map_app, IH, !map_map. done. Qed.
  Lemma product_pairs (a b : list tuple) : product a b = map (fun p => fst p ++ snd p) (pairs a b).
  Proof. unfold product, pairs. induction a as [|x l IH]; [done|]. rewrite !bind_cons, map_app, IH, map_map. done. Qed.
  Lemma flat_product (a b : list tuple) : (r ← map flat a; map (fun s => r ++ s) (map flat b)) = map flat (product a b).
  Proof. unfold product. induction a as [|x l IH]; [done|]. cbn [map]. rewrite !bind_cons, map_app, IH, !map_map. f_equal. apply map_ext. intros u. by rewrite flat_app. Qed.
  Lemma product_shape sc sc' (a b : list tuple) : Forall (shape sc) a -> Forall (shape sc') b -> Forall (shape (sc ++ sc')) (product a b).
  Proof.
    intros Ha Hb. rewrite Forall_forall in Ha, Hb. apply Forall_forall. intros t (x & Ht & Hx)%elem_of_list_bind. apply elem_of_list_fmap in Ht as (y & -> & Hy). by apply shape_app; auto.
  Qed.

  (** * Names of the tables *)
  Lemma good_refs_app b rs rs' : good_refs db b (rs ++ rs') <-> good_refs db b rs /\ good_refs db (b ++ rs) rs'.
  Proof. revert b. induction rs as [|r rs IH]; intros b; cbn; [by rewrite app_nil_r; tauto|]. rewrite IH, <- app_assoc. cbn. tauto. Qed.
  Lemma good_refs_tables b rs : good_refs db b rs -> Forall (good_table db) rs.
  Proof. revert b. induction rs as [|r rs IH]; intros b; cbn; [done|]. intros (H1 & _ & H2). constructor; eauto. Qed.
  Lemma good_refs_nodup b rs : good_refs db b rs -> NoDup (map ref_alias rs) /\ forall r s, r ∈ rs -> s ∈ b -> ref_alias r <> ref_alias s.
  Proof.
    revert b. induction rs as [|r rs IH]; intros b; cbn; [intros _; split; [constructor|intros ? ? H; by apply elem_of_nil in H]|]. intros (_ & H1 & H2). destruct (IH _ H2) as [IH1 IH2]. split.
    - constructor; [|done]. intros (r' & E & Hr')%elem_of_list_fmap. apply (IH2 r' r); [done|apply elem_of_app; right; by apply elem_of_list_singleton|done].
    - intros r' s Hr' Hs. apply elem_of_cons in Hr' as [->|Hr']; [|apply IH2; [done|apply elem_of_app; by left]]. unfold fresh_ref in H1. rewrite Forall_forall in H1. by apply H1.
  Qed.
  Lemma sc_of_app a b : sc_of (a ++ b) = sc_of a ++ sc_of b. Proof. apply map_app. Qed.
  Lemma sc_good rs : Forall (good_table db) rs -> good_scope (sc_of rs).
  Proof. intros H. unfold good_scope, sc_of. apply Forall_fmap. eapply Forall_impl; [exact H|]. by intros r (_ & _ & ?). Qed.
  Lemma sc_nodup rs : good_refs db [] rs -> NoDup (sl (sc_of rs)).
  Proof.
    intros H. pose proof (good_refs_tables _ _ H) as Ht. apply sl_nodup; [by apply sc_good|unfold sc_of; rewrite map_map; cbn; by destruct (good_refs_nodup _ _ H)|].
    unfold sc_of. apply Forall_fmap. eapply Forall_impl; [exact Ht|]. by intros r (_ & ? & _).
  Qed.
  Lemma nodup_app_r {A} (a b : list A) : NoDup (a ++ b) -> NoDup b. Proof. by intros (_ & _ & ?)%NoDup_app. Qed.
  Lemma nodup_app_l {A} (a b : list A) : NoDup (a ++ b) -> NoDup a. Proof. by intros (? & _ & _)%NoDup_app. Qed.

  Lemma visit_from_ok r rs b s : good_refs db b (r :: rs) -> NoDup (sl (sc_of (r :: rs))) -> refs_in b s ->
    exists a p q, visit_from db r rs s = Ok (mkFrame (sl (sc_of (r :: rs))) (map flat (from_tuples db r rs)), set_names s a p q) /\ refs_in (b ++ r :: rs) (set_names s a p q) /\
      Forall (shape (sc_of (r :: rs))) (from_tuples db r rs).
  Proof.
    revert r b s. induction rs as [|r' rs IH]; intros r b s (Ht & Hf & Hg) Hn HR; destruct (visit_ref_ok b s r Ht Hf HR) as (a & p & q & E & HR').
    - exists a, p, q. cbn [visit_from]. rewrite E. cbn [obind]. split; [done|]. split; [done|]. cbn [from_tuples]. by apply tuples_shape.
    - assert (sc_of (r :: r' :: rs) = sc_of [r] ++ sc_of (r' :: rs)) as Esc by done. rewrite Esc, sl_app in Hn.
      destruct (IH r' (b ++ [r]) (set_names s a p q) Hg (nodup_app_r _ _ Hn) HR') as (a' & p' & q' & E' & HR'' & Hs). exists a', p', q'. cbn [visit_from]. rewrite E. cbn [obind snd fst].
      cbn [visit_from] in E'. rewrite E'. cbn [obind snd fst]. unfold cartesian. cbn [f_labels f_rows]. unfold make_frame. rewrite decide_True by done. cbn [obind]. rewrite Esc, sl_app, flat_product. cbn [from_tuples].
      split; [done|]. split; [by rewrite <- app_assoc in HR''|]. apply product_shape; [by apply tuples_shape|done].
  Qed.

  (** * Joins *)
  Lemma value_app_l sc (t u : tuple) i : shape sc t -> in_scope sc i -> value_at (t ++ u) i = value_at t i.
  Proof.
    intros <- (f & cs & Ef & _ & Ea & _). unfold value_at. rewrite Ef, assoc_app. destruct (assoc f t) eqn:E; [done|]. exfalso. apply assoc_some_in in Ea. apply elem_of_list_fmap in Ea as ([g r] & [= -> ->] & Hin).
    cbn in *. clear -E Hin. induction t as [|[m b] t IH]; cbn in *; [by apply elem_of_nil in Hin|]. destruct (string_dec m g); [done|]. apply elem_of_cons in Hin as [[= -> ->]|]; auto.
  Qed.
  Lemma value_app_r sc (t u : tuple) i f : shape sc t -> fst i = Some f -> f ∉ map fst sc -> value_at (t ++ u) i = value_at u i.
  Proof. unfold shape. intros <- Ef Hn. unfold value_at. rewrite Ef, assoc_app, (assoc_none f t); [done|]. rewrite map_map in Hn. exact Hn. Qed.
  Definition norm (op : binop) : binop := match op with BBang => BNe | op => op end.
  Lemma compare_enum_ok op : comparison op -> compare_enum op = Ok (norm op).
  Proof. intros H. unfold comparison in H. destruct op; try done; exfalso; repeat (apply elem_of_cons in H as [H|H]; [done|]); by apply elem_of_nil in H. Qed.
  Definition good_cond (sc sc' : list (string * list string)) (c : ident * option binop * ident) : Prop :=
    in_scope sc (fst (fst c)) /\ (exists op, snd (fst c) = Some op /\ comparison op) /\ in_scope sc' (snd c).
  Definition cond_of (c : ident * option binop * ident) : list (string * binop * string) :=
    match snd (fst c) with Some op => [(ident_text (fst (fst (fst c))) (snd (fst (fst c))), norm op, ident_text (fst (snd c)) (snd (snd c)))] | None => [] end.
  Lemma theta_pairs_ok sc r cs (ps : list (tuple * tuple)) fr gr : good_scope sc -> good_scope (sc_of [r]) -> ref_alias r ∉ map fst sc ->
    Forall (good_cond sc (sc_of [r])) cs -> (forall p, p ∈ ps -> shape sc (fst p) /\ shape (sc_of [r]) (snd p)) ->
    theta_pairs O (mkFrame (sl sc) fr) (mkFrame (sl (sc_of [r])) gr) (concat (map cond_of cs)) (map (fun p => (flat (fst p), flat (snd p))) ps) =
      Ok (map (fun p => (flat (fst p), flat (snd p))) (filter (fun p => forallb (compares O (fst p ++ snd p)) cs = true) ps)).
  Proof.
    intros Hg Hg' Hr. revert ps. induction cs as [|c cs IH]; intros ps Hc Hps.
    - cbn [map concat theta_pairs]. by rewrite (filter_all (fun p => forallb (compares O (fst p ++ snd p)) [])).
    - apply Forall_cons in Hc as [(Hl & (op & Eop & Hop) & Hr') Hc]. destruct c as [[l o] rr]. cbn [fst snd] in *. subst o. cbn [map concat cond_of fst snd app theta_pairs].
      unfold col_idx. cbn [f_labels]. pose proof (sl_in _ _ Hl) as Il. pose proof (sl_in _ _ Hr') as Ir. destruct (index_some _ _ Il) as (i & Ei), (index_some _ _ Ir) as (j & Ej). rewrite Ei, Ej. cbn [obind].
      rewrite (ofilter_ok _ (fun p => match p.1 !! i, p.2 !! j with Some a, Some b => truthy O (bop O (norm op) a b) | _, _ => false end)).
      + cbn [obind]. rewrite filter_map. rewrite IH; [|done|intros p Hp; apply elem_of_list_filter in Hp as [_ Hp]; auto]. do 2 f_equal. cbn [fst snd]. rewrite filter_and. apply filter_ext_in.
        intros [t u] Hp. destruct (Hps _ Hp) as [Hs1 Hs2]. cbn [fst snd] in *. cbn [forallb]. f_equal. unfold compares. cbn [fst snd].
        destruct (flat_cell _ _ _ Hg Hs1 Hl) as (x & Hx & Cx), (flat_cell _ _ _ Hg' Hs2 Hr') as (y & Hy & Cy). unfold cell in Cx, Cy. rewrite Ei in Cx. rewrite Ej in Cy. rewrite Cx, Cy.
        rewrite (value_app_l sc) by done. destruct Hr' as (f & cs' & Ef & _ & Ea & _). assert (f = ref_alias r) as ->. { apply sc_of_assoc in Ea as (r' & ->%elem_of_list_singleton & <- & _). done. }
        rewrite (value_app_r sc _ _ _ (ref_alias r)) by done. rewrite Hx, Hy. done.
      + intros p (pp & -> & Hp)%elem_of_list_fmap. cbn [fst snd]. destruct (Hps pp Hp) as [Hs1 Hs2].
        destruct (flat_cell _ _ _ Hg Hs1 Hl) as (x & Hx & Cx), (flat_cell _ _ _ Hg' Hs2 Hr') as (y & Hy & Cy). unfold cell in Cx, Cy. rewrite Ei in Cx. rewrite Ej in Cy. unfold compare_cells. by rewrite Cx, Cy.
  Qed.
  Lemma in_scope_mono sc sc' i : (forall f cs, assoc f sc = Some cs -> assoc f sc' = Some cs) -> in_scope sc i -> in_scope sc' i.
  Proof. intros H (f & cs & Ef & Hi & Ea & Hc). exists f, cs. auto. Qed.
  Lemma join_conds_ok sc sc' sc'' s cs : good_scope sc'' -> names_ok db sc'' s -> (forall f cs, assoc f sc = Some cs -> assoc f sc'' = Some cs) -> (forall f cs, assoc f sc' = Some cs -> assoc f sc'' = Some cs) ->
    Forall (good_cond sc sc') cs -> join_conds db s (map (fun m => (fst (fst m), snd m)) cs) (omap (fun m => snd (fst m)) cs) = Ok (concat (map cond_of cs)).
  Proof.
    intros Hg Hn H1 H2. induction 1 as [|[[l o] r] cs (Hl & (op & Eop & Hop) & Hr) _ IH]; [done|]. cbn [fst snd map join_conds] in *. subst o. cbn [cond_of fst snd]. rewrite (ident_name_ok db sc'') by eauto using in_scope_mono. cbn [obind].
    rewrite (ident_name_ok db sc'') by eauto using in_scope_mono. cbn [obind]. change (omap ?f ((l, Some op, r) :: cs)) with (op :: omap f cs). cbv iota beta. rewrite compare_enum_ok by done. cbn [obind]. rewrite IH. cbn [obind]. cbn [map concat cond_of fst snd app]. done.
  Qed.
  Lemma visit_join_ok b j ts s : Forall (good_table db) b -> good_refs db b [j_ref j] -> NoDup (sl (sc_of (b ++ [j_ref j]))) -> good_join db b j -> refs_in b s ->
    cur s = mkFrame (sl (sc_of b)) (map flat ts) -> Forall (shape (sc_of b)) ts ->
    exists a p q, visit_join O db j s = Ok (set_cur (set_names s a p q) (mkFrame (sl (sc_of (b ++ [j_ref j]))) (map flat (join_tuples O db ts j)))) /\ refs_in (b ++ [j_ref j]) (set_names s a p q) /\
      Forall (shape (sc_of (b ++ [j_ref j]))) (join_tuples O db ts j).
  Proof.
    intros Hb Hgr Hn Hj HR Hcur Hs. pose proof (good_refs_nodup _ _ Hgr) as [_ Hfresh]. destruct Hgr as (Ht & Hf & _). destruct (visit_ref_ok b s (j_ref j) Ht Hf HR) as (a & p & q & E & HR'). exists a, p, q.
    set (r := j_ref j) in *. assert (ref_alias r ∉ map fst (sc_of b)) as Hnot. { unfold sc_of. rewrite map_map. cbn. intros (r' & Er & Hr')%elem_of_list_fmap. apply (Hfresh r r'); [by apply elem_of_list_singleton|done..]. }
    assert (good_scope (sc_of b)) as Hg by (by apply sc_good). assert (good_scope (sc_of [r])) as Hg' by (apply sc_good; by apply Forall_singleton).
    assert (Forall (good_cond (sc_of b) (sc_of [r])) (comparisons j)) as Hcs by exact Hj.
    assert (join_tuples O db ts j = map (fun p => fst p ++ snd p) (filter (fun p => forallb (compares O (fst p ++ snd p)) (comparisons j) = true) (pairs ts (tuples db r)))) as EJ.
    { unfold join_tuples. rewrite product_pairs, filter_map. done. }
    assert (forall pp, pp ∈ pairs ts (tuples db r) -> shape (sc_of b) (fst pp) /\ shape (sc_of [r]) (snd pp)) as Hps.
    { intros pp (t & Hpp & Ht')%elem_of_list_bind. apply elem_of_list_fmap in Hpp as (u & -> & Hu). cbn. pose proof (tuples_shape r Ht) as Hsr. rewrite Forall_forall in Hs, Hsr. auto. }
    assert (theta_join O (cur (set_names s a p q)) (mkFrame (sl (sc_of [r])) (map flat (tuples db r))) (concat (map cond_of (comparisons j))) = Ok (mkFrame (sl (sc_of (b ++ [r]))) (map flat (join_tuples O db ts j)))) as ET.
    { unfold theta_join. cbn [cur set_names]. rewrite Hcur. cbn [f_rows f_labels]. rewrite pairs_map, theta_pairs_ok by done. cbn [obind]. rewrite sc_of_app, sl_app in Hn |- *. unfold make_frame. rewrite decide_True by done. rewrite EJ, !map_map.
      do 2 f_equal. apply map_ext. intros [t u]. cbn [fst snd]. by rewrite flat_app. }
    assert (names_ok db (sc_of (b ++ [r])) (set_names s a p q)) as Hnames by (by apply refs_names).
    assert (good_scope (sc_of (b ++ [r]))) as Hg''. { apply sc_good. apply Forall_app. split; [done|by apply Forall_singleton]. }
    assert (forall f cs, assoc f (sc_of b) = Some cs -> assoc f (sc_of (b ++ [r])) = Some cs) as M1. { intros f cs Ef. by rewrite sc_of_app, assoc_app, Ef. }
    assert (forall f cs, assoc f (sc_of [r]) = Some cs -> assoc f (sc_of (b ++ [r])) = Some cs) as M2.
    { intros f cs Ef. rewrite sc_of_app, assoc_app. rewrite assoc_none; [done|]. apply sc_of_assoc in Ef as (r' & ->%elem_of_list_singleton & <- & _). done. }
    split; [|split; [done|]].
    - unfold visit_join. fold r. rewrite E. cbn [obind fst snd]. pose proof (join_conds_ok _ _ _ _ _ Hg'' Hnames M1 M2 Hcs) as EC.
      unfold comparisons in *. destruct (j_first j) as [[l op] rr]. cbn [fst snd] in *.
      assert (join_conds db (set_names s a p q) ((l, rr) :: map (fun m => (fst (fst m), snd m)) (j_more j)) (op :: omap (fun m => snd (fst m)) (j_more j)) = Ok (concat (map cond_of ((l, Some op, rr) :: j_more j)))) as EC' by exact EC.
      destruct op, (j_more j) eqn:Em; try (rewrite EC'; cbn [obind]; rewrite ET; done).
      apply Forall_cons in Hcs as [(Hl & _ & Hr) _]. cbn [fst snd] in *. rewrite (ident_name_ok db (sc_of (b ++ [r]))) by eauto using in_scope_mono. cbn [obind].
      rewrite (ident_name_ok db (sc_of (b ++ [r]))) by eauto using in_scope_mono. cbn [obind]. unfold inner_join. unfold cond_of in ET. cbn [map concat fst snd app norm] in ET. rewrite ET. done.
    - rewrite sc_of_app. unfold join_tuples. apply Forall_forall. intros t [_ Hin]%elem_of_list_filter. pose proof (product_shape _ _ _ _ Hs (tuples_shape r Ht)) as HP. rewrite Forall_forall in HP. auto.
  Qed.
  Lemma visit_joins_ok js b ts s : Forall (good_table db) b -> good_refs db b (map j_ref js) -> NoDup (sl (sc_of (b ++ map j_ref js))) -> good_joins db b js -> refs_in b s ->
    cur s = mkFrame (sl (sc_of b)) (map flat ts) -> Forall (shape (sc_of b)) ts ->
    exists a p q, visit_joins O db js s = Ok (set_cur (set_names s a p q) (mkFrame (sl (sc_of (b ++ map j_ref js))) (map flat (foldl (join_tuples O db) ts js)))) /\ refs_in (b ++ map j_ref js) (set_names s a p q) /\
      Forall (shape (sc_of (b ++ map j_ref js))) (foldl (join_tuples O db) ts js).
  Proof.
    revert b ts s. induction js as [|j js IH]; intros b ts s Hb Hr Hn Hj HR Hcur Hs.
    - exists (alias s), (prefix s), (rprefix s). cbn. rewrite app_nil_r, <- Hcur. split; [by destruct s|]. split; [by eapply refs_in_same; [..|exact HR]|done].
    - destruct Hr as (Ht & Hf & Hr). destruct Hj as (Hj & Hjs). cbn [map] in Hn.
      assert (b ++ j_ref j :: map j_ref js = (b ++ [j_ref j]) ++ map j_ref js) as Eb by (by rewrite <- app_assoc).
      assert (NoDup (sl (sc_of (b ++ [j_ref j])))) as Hn1. { rewrite Eb, sc_of_app, sl_app in Hn. by apply nodup_app_l in Hn. }
      destruct (visit_join_ok b j ts s Hb) as (a & p & q & E & HR' & Hs'); [exact (conj Ht (conj Hf I))|done..|]. cbn [visit_joins]. rewrite E. cbn [obind].
      destruct (IH (b ++ [j_ref j]) (join_tuples O db ts j) (set_cur (set_names s a p q) (mkFrame (sl (sc_of (b ++ [j_ref j]))) (map flat (join_tuples O db ts j))))) as (a' & p' & q' & E' & HR'' & Hs'').
      + apply Forall_app. split; [done|by apply Forall_singleton].
      + done.
      + by rewrite <- Eb.
      + done.
      + by eapply refs_in_same; [..|exact HR'].
      + done.
      + done.
      + exists a', p', q'. rewrite E'. cbn [map foldl]. rewrite Eb. split; [done|]. split; [by eapply refs_in_same; [..|exact HR'']|done].
  Qed.
End tables.
