(** What a SQL query means.

    The registered tables are [db]. A query works on combinations of rows, one of each table of its FROM and JOIN clauses; such a
    combination gives a value to every "alias.column". *)
From stdpp Require Import base numbers sorting list strings.
From Coq Require Import Ascii.
From Verif Require Import SqlSyntax.
Local Open Scope string_scope.
Local Open Scope list_scope.

(** * Orders and groups of any kind of things, by a comparison *)
Section order.
  Context {A : Type} (before : A -> A -> bool).
  Definition same (x y : A) : bool := negb (before x y) && negb (before y x).
  (** [p] is [l] in ascending order; things that are the same keep their order. *)
  Definition in_order (l p : list A) : Prop :=
    p ≡ₚ l /\ StronglySorted (fun x y => before y x = false) p /\
    forall x, x ∈ l -> filter (fun y => same x y = true) p = filter (fun y => same x y = true) l.
  (** [gs] are the groups of [l]: each is all of [l] that is the same as its first element, in the order of [l]; the groups ascend and
      every element is in one of them. *)
  Definition groups_of (l : list A) (gs : list (list A)) : Prop :=
    (forall g, g ∈ gs -> exists x g', g = x :: g' /\ x ∈ l /\ g = filter (fun y => same x y = true) l) /\
    (forall x, x ∈ l -> exists g, g ∈ gs /\ x ∈ g) /\
    StronglySorted (fun g h => forall x y, x ∈ g -> y ∈ h -> before x y = true) gs.
  (** [r] has every element of [l] once, up to [same]. *)
  Definition distinct_of (l r : list A) : Prop :=
    (forall x, x ∈ r -> x ∈ l) /\ (forall x, x ∈ l -> exists y, y ∈ r /\ same x y = true) /\ ForallOrdPairs (fun x y => same x y = false) r.
End order.

Section meaning.
  Context {V : Type} (O : ops V) (db : list (string * frame V)).

  (** * Rows of several tables *)
  Definition tuple : Type := list (string * list (string * V)).
  Definition value_at (t : tuple) (i : ident) : option V :=
    match fst i with Some f => match assoc f t with Some r => assoc (snd i) r | None => None end | None => None end.
  Definition ref_alias (r : tref) : string := match snd r with Some a => a | None => fst r end.
  Definition table (r : tref) : frame V := match assoc (fst r) db with Some f => f | None => mkFrame [] [] end.
  (** the names of the columns: their labels without a prefix *)
  Definition columns (r : tref) : list string := map behind_dot (f_labels (table r)).
  Definition tuples (r : tref) : list tuple := map (fun row => [(ref_alias r, zip (columns r) row)]) (f_rows (table r)).
  Definition product (a b : list tuple) : list tuple := t ← a; map (fun u => t ++ u) b.
  Fixpoint from_tuples (r : tref) (rs : list tref) : list tuple :=
    match rs with [] => tuples r | r' :: rs => product (tuples r) (from_tuples r' rs) end.
  Definition comparisons (j : join) : list (ident * option binop * ident) := (fst (fst (j_first j)), Some (snd (fst (j_first j))), snd (j_first j)) :: j_more j.
  Definition compares (t : tuple) (c : ident * option binop * ident) : bool :=
    match value_at t (fst (fst c)), snd (fst c), value_at t (snd c) with
    | Some a, Some op, Some b => truthy O (bop O (match op with BBang => BNe | op => op end) a b)
    | _, _, _ => false
    end.
  Definition join_tuples (ts : list tuple) (j : join) : list tuple := filter (fun t => forallb (compares t) (comparisons j) = true) (product ts (tuples (j_ref j))).

  (** * Expressions *)
  Definition between (x l h : V) : V :=
    bop O BOr (bop O BAnd (bop O BGe x l) (bop O BLe x h)) (bop O BAnd (bop O BGe x h) (bop O BLe x l)).
  (** of one combination of rows *)
  Fixpoint ev (t : tuple) (e : expr V) : option V :=
    match e with
    | ELit _ v => Some v
    | EIdent f c => value_at t (f, c)
    | EParen e => ev t e
    | EBin op a b => match ev t a, ev t b with Some x, Some y => Some (bop O op x y) | _, _ => None end
    | EBetween o l h => match ev t o, ev t l, ev t h with Some x, Some y, Some z => Some (between x y z) | _, _, _ => None end
    | EStar | EAgg _ _ => None
    end.
  (** of a group of combinations: identifiers are taken from its first element, aggregation functions see all of them *)
  Fixpoint ev_group (g : list tuple) (e : expr V) : option V :=
    match e with
    | ELit _ v => Some v
    | EIdent f c => match g with t :: _ => value_at t (f, c) | [] => None end
    | EParen e => ev_group g e
    | EBin op a b => match ev_group g a, ev_group g b with Some x, Some y => Some (bop O op x y) | _, _ => None end
    | EBetween o l h => match ev_group g o, ev_group g l, ev_group g h with Some x, Some y, Some z => Some (between x y z) | _, _, _ => None end
    | EAgg f a => match fn_of f, mapM (fun t => ev t a) g with Some fn, Some vs => Some (aggf O fn vs) | _, _ => None end
    | EStar => None
    end.
  Definition holds (v : option V) : bool := match v with Some v => truthy O v | None => false end.

  (** comparison by several keys, each ascending or descending *)
  Fixpoint key_before (ks : list (ident * bool)) (t u : tuple) : bool :=
    match ks with
    | [] => false
    | (i, asc) :: ks =>
        match value_at t i, value_at u i with
        | Some a, Some b => if (if asc : bool then vlt O a b else vlt O b a) then true else if (if asc : bool then vlt O b a else vlt O a b) then false else key_before ks t u
        | _, _ => false
        end
    end.
  Definition head_before (ks : list (ident * bool)) (g h : list tuple) : bool := match g, h with t :: _, u :: _ => key_before ks t u | _, _ => false end.
  (** comparison of rows, column by column *)
  Fixpoint row_lt (r s : list V) : bool :=
    match r, s with
    | a :: r, b :: s => if vlt O a b then true else if vlt O b a then false else row_lt r s
    | _, _ => false
    end.

  (** * Queries *)
  Definition refs (q : query V) : list tref := q_from q :: q_froms q ++ map j_ref (q_joins q).
  Definition scope (q : query V) : list (string * list string) := map (fun r => (ref_alias r, columns r)) (refs q).
  Definition items (q : query V) : list (item V) := q_item q :: q_items q.
  Definition keys (q : query V) : list ident := match q_group q with Some (k, ks, _) => k :: ks | None => [] end.
  Definition orders (q : query V) : list (ident * bool) := match q_order q with Some os => os | None => [] end.
  Definition source (q : query V) : list tuple :=
    let ts := foldl join_tuples (from_tuples (q_from q) (q_froms q)) (q_joins q) in
    match q_where q with Some e => filter (fun t => holds (ev t e) = true) ts | None => ts end.
  (** * and f.* *)
  Definition star_of (e : expr V) : option (option string) :=
    match e with EStar => Some None | EIdent (Some f) c => if decide (c = "*") then Some (Some f) else None | _ => None end.
  Fixpoint has_agg (e : expr V) : bool :=
    match e with
    | ELit _ _ | EStar | EIdent _ _ => false | EAgg _ _ => true | EParen e => has_agg e
    | EBin _ a b => has_agg a || has_agg b | EBetween o l h => has_agg o || has_agg l || has_agg h
    end.
  (** a query without GROUP BY that computes aggregates of all rows *)
  Definition is_total (q : query V) : bool := bool_decide (q_group q = None) && existsb (fun i => has_agg (fst i)) (items q).

  (** the labels of the result: all columns for *, the columns of f for f.*, else the name given with AS or the text *)
  Definition item_labels (q : query V) (i : item V) : list string :=
    match star_of (fst i) with
    | Some None => s ← scope q; map (fun c => ident_text (Some (fst s)) c) (snd s)
    | Some (Some f) => s ← filter (fun s => fst s = f) (scope q); map (fun c => ident_text (Some (fst s)) c) (snd s)
    | None => [match snd i with Some a => a | None => text (fst i) end]
    end.
  Definition labels (q : query V) : list string := concat (map (item_labels q) (items q)).
  Definition item_values (t : tuple) (i : item V) : option (list V) :=
    match star_of (fst i) with
    | Some None => Some (r ← t; map snd (snd r))
    | Some (Some f) => Some (r ← filter (fun s => fst s = f) t; map snd (snd r))
    | None => match ev t (fst i) with Some v => Some [v] | None => None end
    end.
  Definition row_of (q : query V) (t : tuple) : option (list V) := match mapM (item_values t) (items q) with Some l => Some (concat l) | None => None end.
  Definition group_row_of (q : query V) (g : list tuple) : option (list V) := mapM (fun i => ev_group g (fst i)) (items q).

  (** The rows of a query before DISTINCT. *)
  Definition selects (q : query V) (rows : list (list V)) : Prop :=
    match q_group q with
    | Some (_, _, having) =>
        exists gs p, groups_of (key_before (map (fun k => (k, true)) (keys q))) (source q) gs /\
          in_order (head_before (orders q)) (match having with Some e => filter (fun g => holds (ev_group g e) = true) gs | None => gs end) p /\
          Forall2 (fun g r => group_row_of q g = Some r) p rows
    | None =>
        exists p, in_order (key_before (orders q)) (source q) p /\
          (if is_total q then exists r, group_row_of q p = Some r /\ rows = [r] else Forall2 (fun t r => row_of q t = Some r) p rows)
    end.
  Definition answer (q : query V) (ls : list string) (rows : list (list V)) : Prop :=
    ls = labels q /\ exists rows', selects q rows' /\ (if q_distinct q then distinct_of row_lt rows' rows /\ StronglySorted (fun r s => row_lt r s = true) rows else rows = rows').

  (** * Which queries are considered *)
  (** IDENTIFIER, SQLGrammar.g4 187-188 *)
  Definition id_char (c : ascii) : bool :=
    let n := nat_of_ascii c in ((48 <=? n) && (n <=? 57) || (65 <=? n) && (n <=? 90) || (97 <=? n) && (n <=? 122) || (n =? 95))%nat.
  Fixpoint id_chars (s : string) : bool := match s with EmptyString => true | String c s => id_char c && id_chars s end.
  Definition identifier (s : string) : Prop := s <> "" /\ id_chars s = true.
  (** no literal ends with '*' *)
  Definition literal (t : string) : Prop := exists p c, t = String.append p (String c "") /\ c <> "*"%char.

  Definition in_scope (sc : list (string * list string)) (i : ident) : Prop :=
    exists f cs, fst i = Some f /\ identifier (snd i) /\ assoc f sc = Some cs /\ snd i ∈ cs.
  Fixpoint row_expr (sc : list (string * list string)) (e : expr V) : Prop :=
    match e with
    | ELit t _ => literal t
    | EIdent f c => in_scope sc (f, c)
    | EParen e => row_expr sc e
    | EBin op a b => op <> BBang /\ row_expr sc a /\ row_expr sc b
    | EBetween o l h => row_expr sc o /\ row_expr sc l /\ row_expr sc h
    | EStar | EAgg _ _ => False
    end.
  (** in a query with GROUP BY: identifiers outside of aggregation functions are keys *)
  Fixpoint group_expr (sc : list (string * list string)) (ks : list ident) (e : expr V) : Prop :=
    match e with
    | ELit _ _ => True
    | EIdent f c => (f, c) ∈ ks
    | EParen e => group_expr sc ks e
    | EBin op a b => op <> BBang /\ group_expr sc ks a /\ group_expr sc ks b
    | EBetween o l h => group_expr sc ks o /\ group_expr sc ks l /\ group_expr sc ks h
    | EAgg f a => is_Some (fn_of f) /\ row_expr sc a
    | EStar => False
    end.
  Fixpoint has_column (e : expr V) : bool :=
    match e with
    | EIdent _ _ => true | ELit _ _ | EStar | EAgg _ _ => false | EParen e => has_column e
    | EBin _ a b => has_column a || has_column b | EBetween o l h => has_column o || has_column l || has_column h
    end.
  (** in a query that aggregates all rows: the functions are applied to expressions with columns, and AND and OR to expressions with functions *)
  Fixpoint total_expr (sc : list (string * list string)) (e : expr V) : Prop :=
    match e with
    | ELit _ _ => True
    | EParen e => total_expr sc e
    | EBin op a b => op <> BBang /\ total_expr sc a /\ total_expr sc b /\ ((op = BAnd \/ op = BOr) -> has_agg a = true /\ has_agg b = true)
    | EBetween o l h => total_expr sc o /\ total_expr sc l /\ total_expr sc h
    | EAgg f a => is_Some (fn_of f) /\ row_expr sc a /\ has_column a = true
    | EStar | EIdent _ _ => False
    end.
  Definition row_item (sc : list (string * list string)) (i : item V) : Prop :=
    match star_of (fst i) with Some None => True | Some (Some f) => is_Some (assoc f sc) | None => row_expr sc (fst i) end.

  (** the table is registered and has columns with distinct names *)
  Definition good_table (r : tref) : Prop :=
    (exists f, assoc (fst r) db = Some f /\ f_labels f <> [] /\ Forall (fun row => length row = length (f_labels f)) (f_rows f)) /\ NoDup (columns r) /\ identifier (ref_alias r).
  (** a table and the tables before it: its alias is neither an alias nor the name of one of them, and its name is not the alias of another table *)
  Definition fresh_ref (before : list tref) (r : tref) : Prop :=
    Forall (fun s => ref_alias r <> ref_alias s /\ ref_alias r <> fst s /\ (fst r = ref_alias s -> fst r = fst s)) before.
  Fixpoint good_refs (before rs : list tref) : Prop :=
    match rs with [] => True | r :: rs => good_table r /\ fresh_ref before r /\ good_refs (before ++ [r]) rs end.
  Definition comparison (op : binop) : Prop := op ∈ [BEq; BNe; BBang; BLt; BLe; BGt; BGe].
  (** the left sides of the comparisons refer to the tables before, the right sides to the joined table *)
  Definition good_join (before : list tref) (j : join) : Prop :=
    Forall (fun c => in_scope (map (fun r => (ref_alias r, columns r)) before) (fst (fst c)) /\ (exists op, snd (fst c) = Some op /\ comparison op) /\
                     in_scope [(ref_alias (j_ref j), columns (j_ref j))] (snd c)) (comparisons j).
  Fixpoint good_joins (before : list tref) (js : list join) : Prop :=
    match js with [] => True | j :: js => good_join before j /\ good_joins (before ++ [j_ref j]) js end.
  (** the names that the translation gives to columns of its own *)
  Definition reserved (s : string) : Prop := exists t, s = String.append "group_" t.

  Definition well_formed (q : query V) : Prop :=
    good_refs [] (refs q) /\ good_joins (q_from q :: q_froms q) (q_joins q) /\
    (forall e, q_where q = Some e -> row_expr (scope q) e) /\
    NoDup (labels q) /\
    match q_group q with
    | Some (_, _, having) =>
        Forall (in_scope (scope q)) (keys q) /\ NoDup (keys q) /\ Forall (fun r => ~ reserved (ref_alias r)) (refs q) /\
        (forall e, having = Some e -> group_expr (scope q) (keys q) e) /\
        Forall (fun i => group_expr (scope q) (keys q) (fst i)) (items q) /\
        Forall (fun o => fst o ∈ keys q) (orders q) /\ q_distinct q = false
    | None =>
        Forall (fun o => in_scope (scope q) (fst o)) (orders q) /\ (q_distinct q = true -> q_order q = None) /\
        if is_total q then Forall (fun i => total_expr (scope q) (fst i) /\ has_agg (fst i) = true) (items q)
        else Forall (row_item (scope q)) (items q)
    end.
End meaning.
