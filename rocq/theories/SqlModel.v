(** Model of the translation of SQL queries (src/parser/sql/SQLVisitor.cpp), together with the kernels the generated operations call.

    The visitor emits straight-line code; in the model every emitted operation is executed right away, so that the result of visiting a
    query is the frame the query returns. An error of the visitor and an error of a kernel are both [Throw].

    Simplifications: values have no types: all values are of one arbitrary type, operators are total functions, and literals are given as
    values. Text is not escaped (createStringConstant). The kernels are the ones modelled elsewhere, here as functions on rows: order as
    in C31, group as in C55, inner join as in C32, filterRow as in C44, lookup of labels as in C17; that the group kernel writes an array
    out of bounds if the keys are given by name (C55) is not repeated here. A binary operation with a scalar on the left is taken to
    work elementwise. *)
From stdpp Require Import base numbers list strings.
From Coq Require Import Ascii.
From Verif Require Import CppBase SqlSyntax.
Local Open Scope string_scope.
Local Open Scope list_scope.
Notation "s +++ t" := (String.append s t) (at level 60, right associativity).

(** * Text *)
(** std::to_string of a number that is not negative *)
Definition digit (n : nat) : string := String (ascii_of_nat (48 + n)%nat) EmptyString.
Fixpoint decimal_fuel (fuel n : nat) : string :=
  match fuel with
  | 0 => EmptyString
  | S fuel => if (n <? 10)%nat then digit n else decimal_fuel fuel (n / 10)%nat +++ digit (n mod 10)%nat
  end.
Definition decimal (n : nat) : string := decimal_fuel (S n) n.
Fixpoint last_char (s : string) : option ascii :=
  match s with EmptyString => None | String c EmptyString => Some c | String _ s => last_char s end.
(** label.compare(label.length() - 2, 2, ".*") == 0, SQLVisitor.cpp 703; std::out_of_range if the text has one character *)
Fixpoint ends_dot_star (s : string) : bool :=
  match s with EmptyString => false | String _ t => if string_dec s ".*" then true else ends_dot_star t end.

(** * Frames and kernels *)
Section model.
  Context {V : Type} (O : ops V).
  Definition index_of (l : string) (ls : list string) : option nat := fst <$> list_find (fun l' => l' = l) ls.
  (** Frame.h 96-108: the labels must be distinct *)
  Definition make_frame (ls : list string) (rows : list (list V)) : outcome (frame V) := if decide (NoDup ls) then Ok (mkFrame ls rows) else Throw.
  (** Frame::getColumnIdx, Frame.h 335-344 *)
  Definition col_idx (f : frame V) (l : string) : outcome nat := match index_of l (f_labels f) with Some i => Ok i | None => Throw end.
  (** the cells of a row at the given positions *)
  Definition cells (idxs : list nat) (r : list V) : outcome (list V) := match mapM (fun i => r !! i) idxs with Some vs => Ok vs | None => UB end.
  Fixpoint omapM {A B} (f : A -> outcome B) (l : list A) : outcome (list B) :=
    match l with [] => Ok [] | x :: l => let* y := f x in let* ys := omapM f l in Ok (y :: ys) end.
  (** the columns at the given positions *)
  Definition select_cols (f : frame V) (idxs : list nat) : outcome (frame V) :=
    let* ls := (match mapM (fun i => f_labels f !! i) idxs with Some ls => Ok ls | None => UB end) in
    let* rows := omapM (cells idxs) (f_rows f) in make_frame ls rows.
  (** ExtractCol<Frame, Frame, char>, ExtractCol.h 121-144 *)
  Definition extract_col (f : frame V) (name : string) : outcome (frame V) :=
    if string_dec (behind_dot name) "*" then
      let* idxs := omapM (col_idx f) (filter (fun l => before_dot l = before_dot name) (f_labels f)) in select_cols f idxs
    else let* i := col_idx f name in select_cols f [i].
  (** ColBind of two frames: Frame.h 163-185 *)
  Definition col_bind (f g : frame V) : outcome (frame V) :=
    if decide (length (f_rows f) = length (f_rows g)) then make_frame (f_labels f ++ f_labels g) (zip_with app (f_rows f) (f_rows g)) else Throw.
  (** LabelUtils.h 26-29, SetColLabelsPrefix.h 32-54 *)
  Definition set_prefix (p l : string) : string := match find_dot l with None => p +++ "." +++ l | Some r => p +++ "." +++ r end.
  Definition set_labels_prefix (f : frame V) (p : string) : outcome (frame V) := make_frame (map (set_prefix p) (f_labels f)) (f_rows f).
  (** Cartesian.h 33-80 (the cells of columns that are neither int64_t nor double are not copied) *)
  Definition cartesian (f g : frame V) : outcome (frame V) :=
    make_frame (f_labels f ++ f_labels g) (r ← f_rows f; map (fun s => r ++ s) (f_rows g)).
  (** FilterRow.h 93-170 on frames *)
  Definition filter_row (f : frame V) (sel : list V) : outcome (frame V) :=
    if decide (length sel = length (f_rows f)) then Ok (mkFrame (f_labels f) (map fst (filter (fun p => truthy O (snd p) = true) (zip (f_rows f) sel)))) else Throw.
  (** compareValues, ThetaJoin.h 237-270, on rows at the given columns *)
  Definition compare_cells (op : binop) (i j : nat) (r s : list V) : outcome bool :=
    match r !! i, s !! j with Some a, Some b => Ok (truthy O (bop O op a b)) | _, _ => UB end.
  Fixpoint ofilter {A} (p : A -> outcome bool) (l : list A) : outcome (list A) :=
    match l with [] => Ok [] | x :: l => let* b := p x in let* ys := ofilter p l in Ok (if b then x :: ys else ys) end.
  (** ThetaJoin.h 285-357: the pairs of rows fulfilling the first comparison, of these the ones fulfilling the second, ... *)
  Fixpoint theta_pairs (f g : frame V) (conds : list (string * binop * string)) (ps : list (list V * list V)) : outcome (list (list V * list V)) :=
    match conds with
    | [] => Ok ps
    | (l, op, r) :: conds =>
        let* i := col_idx f l in let* j := col_idx g r in
        let* ps := ofilter (fun p => compare_cells op i j (fst p) (snd p)) ps in theta_pairs f g conds ps
    end.
  Definition theta_join (f g : frame V) (conds : list (string * binop * string)) : outcome (frame V) :=
    let* ps := theta_pairs f g conds (r ← f_rows f; map (fun s => (r, s)) (f_rows g)) in
    make_frame (f_labels f ++ f_labels g) (map (fun p => fst p ++ snd p) ps).
  (** InnerJoin.h: the pairs of rows with equal keys *)
  Definition inner_join (f g : frame V) (l r : string) : outcome (frame V) := theta_join f g [(l, BEq, r)].

  (** Order.h: stable; the first key decides, then the second, ... *)
  Fixpoint row_before (ks : list (nat * bool)) (r s : list V) : bool :=
    match ks with
    | [] => false
    | (i, asc) :: ks =>
        match r !! i, s !! i with
        | Some a, Some b => if (if asc : bool then vlt O a b else vlt O b a) then true else if (if asc : bool then vlt O b a else vlt O a b) then false else row_before ks r s
        | _, _ => false
        end
    end.
  Section sort.
    Context {A : Type} (lt : A -> A -> bool).
    Fixpoint sinsert (x : A) (l : list A) : list A := match l with [] => [x] | y :: l => if lt y x then y :: sinsert x l else x :: y :: l end.
    Fixpoint ssort (l : list A) : list A := match l with [] => [] | x :: l => sinsert x (ssort l) end.
    (** the maximal runs of elements that are equivalent to the first of them *)
    Fixpoint runs (l : list A) : list (list A) :=
      match l with
      | [] => []
      | x :: l => match runs l with
                  | (y :: g) :: gs => if lt x y || lt y x then [x] :: (y :: g) :: gs else (x :: y :: g) :: gs
                  | gs => [x] :: gs
                  end
      end.
  End sort.
  Definition order_frame (f : frame V) (ks : list (nat * bool)) : outcome (frame V) :=
    if forallb (fun k => (fst k <? length (f_labels f))%nat) ks then Ok (mkFrame (f_labels f) (ssort (row_before ks) (f_rows f))) else Throw.

  (** myStringifyGroupEnum, Group.h 62-77 *)
  Definition fn_label (fn : aggfn) : string := match fn with Count => "COUNT" | Sum => "SUM" | Min => "MIN" | Max => "MAX" | Avg => "AVG" end.
  Definition agg_label (fn : aggfn) (l : string) : string := fn_label fn +++ "(" +++ l +++ ")".
  (** Group.h 205-230: the columns named by "*" (without the aggregated ones) and by "f.*" *)
  Definition star_labels (f : frame V) (aggs : list string) (k : string) : list string :=
    if string_dec k "*" then filter (fun l => ~ l ∈ aggs) (f_labels f)
    else if string_dec (behind_dot k) "*" then filter (fun l => before_dot l = before_dot k) (f_labels f)
    else [].
  (** one row per group: the keys of its first row, then the aggregates of its rows (Group.h 314-329) *)
  Definition group_row (ki ai : list nat) (fns : list aggfn) (g : list (list V)) : outcome (list V) :=
    let* k := (match g with [] => UB | r :: _ => cells ki r end) in
    let* cols := omapM (fun i => match mapM (fun r : list V => r !! i) g with Some vs => Ok vs | None => UB end) ai in
    Ok (k ++ zip_with (aggf O) fns cols).
  (** Group.h 182-332 *)
  Definition group_frame (f : frame V) (keys aggs : list string) (fns : list aggfn) : outcome (frame V) :=
    let star := concat (map (star_labels f aggs) keys) in
    let kl := match star with [] => keys | _ => star end in
    let* ki := omapM (col_idx f) kl in
    let* ai := omapM (col_idx f) aggs in
    let gs := match kl with [] => [f_rows f] | _ => let lt := row_before (map (fun i => (i, true)) ki) in runs lt (ssort lt (f_rows f)) end in
    let* rows := omapM (group_row ki ai fns) gs in
    make_frame (kl ++ zip_with agg_label fns aggs) rows.

  (** * The visitor *)
  (** a value of the generated code: a frame, a column, a scalar *)
  Inductive rval := RFrame (f : frame V) | RCol (c : list V) | RScal (v : V).
  (** SQLVisitor.h 40-162: maps as association lists whose first entry counts; [ground] is ordered *)
  Record st := mkSt {
    alias : list (string * frame V); prefix : list (string * string); rprefix : list (string * string);
    grouped : list string; gname : list string; cname : list string; fname : list aggfn; ground : list string;
    gc : nat; gcc : nat; cg : bool; grp : bool; agg : bool; cur : frame V }.
  Definition set_cur (s : st) (f : frame V) : st := mkSt (alias s) (prefix s) (rprefix s) (grouped s) (gname s) (cname s) (fname s) (ground s) (gc s) (gcc s) (cg s) (grp s) (agg s) f.
  Definition set_flags (s : st) (c g a : bool) : st := mkSt (alias s) (prefix s) (rprefix s) (grouped s) (gname s) (cname s) (fname s) (ground s) (gc s) (gcc s) c g a (cur s).
  Definition set_gcc (s : st) (n : nat) : st := mkSt (alias s) (prefix s) (rprefix s) (grouped s) (gname s) (cname s) (fname s) (ground s) (gc s) n (cg s) (grp s) (agg s) (cur s).
  Definition set_ground (s : st) (l : list string) (n : nat) : st := mkSt (alias s) (prefix s) (rprefix s) (grouped s) (gname s) (cname s) (fname s) l n (gcc s) (cg s) (grp s) (agg s) (cur s).
  Definition add_agg (s : st) (l : string) (fn : aggfn) : st := mkSt (alias s) (prefix s) (rprefix s) (grouped s) (gname s) (cname s ++ [l]) (fname s ++ [fn]) (ground s) (gc s) (gcc s) (cg s) (grp s) (agg s) (cur s).
  Definition add_key (s : st) (l t : string) : st := mkSt (alias s) (prefix s) (rprefix s) (t :: grouped s) (gname s ++ [l]) (cname s) (fname s) (ground s) (gc s) (gcc s) (cg s) (grp s) (agg s) (cur s).
  Definition set_names (s : st) (a : list (string * frame V)) (p r : list (string * string)) : st := mkSt a p r (grouped s) (gname s) (cname s) (fname s) (ground s) (gc s) (gcc s) (cg s) (grp s) (agg s) (cur s).

  (** fetch<std::string>, SQLVisitor.cpp 72-78: "" if there is none *)
  Definition fetch_str (l : list (string * string)) (n : string) : string := match assoc n l with Some p => p | None => "" end.

  Context (view : list (string * frame V)).

  (** setFramePrefix, SQLVisitor.cpp 82-113. The loop (99-104) tries the same new prefix for ever. *)
  Definition set_frame_prefix (s : st) (name pre : string) (necessary ignore : bool) : outcome (string * st) :=
    if string_dec (fetch_str (prefix s) name) "" then
      let inuse := negb (bool_decide (fetch_str (rprefix s) pre = "")) && negb ignore in
      let* np := (if inuse then (if string_dec (fetch_str (rprefix s) (pre +++ "1")) "" then Ok (pre +++ "1") else UB) else Ok pre) in
      Ok (np, set_names s (alias s) ((name, np) :: prefix s) (if ignore then rprefix s else (np, name) :: rprefix s))
    else if necessary then Throw else Ok ("", s).
  (** fetchMLIR, SQLVisitor.cpp 124-139 *)
  Definition fetch_frame (s : st) (n : string) : outcome (frame V) :=
    match assoc n (alias s) with Some f => Ok f | None => match assoc n view with Some f => Ok f | None => Throw end end.
  (** hasMLIR, 146-150 *)
  Definition has_frame (s : st) (n : string) : bool := match assoc n (alias s) with Some _ => true | None => match assoc n view with Some _ => true | None => false end end.
  (** visitTableReference, 1040-1065 *)
  Definition visit_ref (r : tref) (s : st) : outcome (frame V * st) :=
    let* f := fetch_frame s (fst r) in
    let s := set_names s ((fst r, f) :: alias s) (prefix s) (rprefix s) in
    let* p := (match snd r with
               | Some aka => set_frame_prefix (set_names s ((aka, f) :: alias s) (prefix s) (rprefix s)) aka aka true false
               | None => Ok (fst r, s)
               end) in
    let* q := set_frame_prefix (snd p) (fst r) (fst p) (bool_decide (snd r = None)) (bool_decide (is_Some (snd r))) in
    let* g := set_labels_prefix f (fst p) in Ok (g, snd q).
  (** visitStringIdent, 1071-1093 *)
  Definition visit_ident_name (i : ident) (s : st) : outcome string :=
    match fst i with
    | Some f => if has_frame s f then Ok (let p := fetch_str (prefix s) f in if string_dec p "" then snd i else p +++ "." +++ snd i) else Throw
    | None => Ok (snd i)
    end.

  (** castToMatrixColumn, 164-177 (a frame cannot be a filled value) *)
  Definition to_col (s : st) (v : rval) : outcome (list V) :=
    match v with RCol c => Ok c | RScal v => Ok (replicate (length (f_rows (cur s))) v) | RFrame _ => Throw end.
  (** matrixToFrame, 179-197: the kernel for creating frames *)
  Definition col_to_frame (c : list V) (l : string) : frame V := mkFrame [l] (map (fun v => [v]) c).
  (** extractColumnAsMatrixFromFrame, 226-235 *)
  Definition extract_matrix (s : st) (l : string) : outcome (list V) :=
    let* f := extract_col (cur s) l in omapM (fun r : list V => match r with [v] => Ok v | _ => Throw end) (f_rows f).
  (** elementwise operations: the shapes must agree, or the right side has one row *)
  Definition ew (op : binop) (x y : rval) : outcome rval :=
    match x, y with
    | RScal a, RScal b => Ok (RScal (bop O op a b))
    | RCol a, RScal b => Ok (RCol (map (fun v => bop O op v b) a))
    | RScal a, RCol b => Ok (RCol (map (bop O op a) b))
    | RCol a, RCol b => if decide (length a = length b) then Ok (RCol (zip_with (bop O op) a b))
                        else match b with [w] => Ok (RCol (map (fun v => bop O op v w) a)) | _ => Throw end
    | _, _ => Throw
    end.
  (** insertion into std::set<std::string> *)
  Fixpoint set_insert (x : string) (l : list string) : list string :=
    match l with [] => [x] | y :: l => if string_dec x y then y :: l else if String.ltb x y then x :: y :: l else y :: set_insert x l end.
  Definition group_name (n : nat) (t : string) : string := "group_" +++ decimal n +++ "_" +++ t.
  Definition need {A} (v : option A) : outcome A := match v with Some v => Ok v | None => Throw end.
  Definition ends_star (t : string) : bool := bool_decide (last_char t = Some "*"%char).

  (** visitStarExpr, 714-754 *)
  Definition visit_star (s : st) : outcome (option rval * st) :=
    if negb (cg s) then Ok (None, s)
    else match grp s, ground s with
         | true, c :: cs =>
             let* f := extract_col (cur s) c in
             let* g := foldl (fun (acc : outcome (frame V)) l => let* acc := acc in let* g := extract_col (cur s) l in col_bind acc g) (Ok f) cs in
             Ok (Some (RFrame g), set_ground s cs (gc s))
         | false, _ => if agg s then Throw else Ok (Some (RFrame (cur s)), s)
         | true, [] => Ok (Some (RFrame (cur s)), s)
         end.
  (** visitIdentifierExpr, 683-712 (an identifier "*" is parsed as a star expression) *)
  Definition visit_ident (f : option string) (c : string) (s : st) : outcome (option rval * st) :=
    let t := ident_text f c in
    if grp s && negb (agg s) && negb (bool_decide (t ∈ grouped s)) && negb (ends_star t) && negb (bool_decide ("*" ∈ grouped s)) then Throw
    else if negb (cg s) then Ok (None, s)
    else if string_dec t "*" then Throw
    else if (String.length t <? 2)%nat then Throw
    else if ends_dot_star t then let* l := visit_ident_name (f, c) s in let* g := extract_col (cur s) l in Ok (Some (RFrame g), s)
    else let* l := visit_ident_name (f, c) s in let* col := extract_matrix s l in Ok (Some (RCol col), s).
  (** visitMulExpr, visitAddExpr, visitCmpExpr, visitAndExpr, visitOrExpr (872-953, 995-1034), once the two sides are visited *)
  Definition apply_op (s : st) (op : binop) (x y : rval) : outcome rval :=
    match op with
    | BAnd | BOr => let* a := to_col s x in let* b := to_col s y in ew op (RCol a) (RCol b)
    | BBang => Throw
    | _ => ew op x y
    end.
  (** visitBetweenExpr, 955-993 *)
  Definition between_op (x l h : rval) : outcome rval :=
    let* a1 := ew BGe x l in let* a2 := ew BLe x h in let* a := ew BAnd a1 a2 in
    let* b1 := ew BGe x h in let* b2 := ew BLe x l in let* b := ew BAnd b1 b2 in ew BOr a b.

  Fixpoint visit (e : expr V) (s : st) : outcome (option rval * st) :=
    match e with
    | ELit _ v => Ok (if cg s then Some (RScal v) else None, s)               (* 676-681 *)
    | EStar => visit_star s
    | EIdent f c => visit_ident f c s
    | EParen e => visit e s                                                   (* 848-870 *)
    | EBin op a b =>
        let* p := visit a s in let* q := visit b (snd p) in
        if cg (snd q) then let* x := need (fst p) in let* y := need (fst q) in let* r := apply_op (snd q) op x y in Ok (Some r, snd q) else Ok (None, snd q)
    | EBetween o l h =>
        let* p := visit o s in let* q := visit l (snd p) in let* w := visit h (snd q) in
        if cg (snd w) then let* x := need (fst p) in let* y := need (fst q) in let* z := need (fst w) in let* r := between_op x y z in Ok (Some r, snd w)
        else Ok (None, snd w)
    | EAgg f a =>                                                             (* 756-846 *)
        let name := group_name (gc s) (text a) in
        let s := set_ground s (set_insert (text a) (ground s)) (gc s + 1)%nat in
        if ends_star (text a) then Throw
        else if negb (grp s) && cg s then
          let* p := visit a s in let* v := need (fst p) in
          let* c := (match v with RCol c => Ok c | _ => UB end) in            (* 784: the type is dereferenced *)
          let* fn := need (fn_of f) in Ok (Some (RCol [aggf O fn c]), snd p)
        else if agg s then Throw
        else
          let* fn := need (fn_of f) in
          if negb (cg s) then
            let* p := visit a (set_flags (add_agg s name fn) true (grp s) true) in let* v := need (fst p) in
            let s := set_flags (snd p) false (grp (snd p)) false in
            let* c := to_col s v in
            let* g := col_bind (cur s) (col_to_frame c name) in Ok (None, set_cur s g)
          else
            let name := agg_label fn (group_name (gcc s) (text a)) in
            let s := set_gcc s (gcc s + 1)%nat in
            let* c := extract_matrix s name in Ok (Some (RCol c), s)
    end.

  (** visitSelectExpr, 420-446 *)
  Definition visit_item (i : item V) (s : st) : outcome (option (frame V) * st) :=
    let* p := visit (fst i) s in
    if negb (cg (snd p)) then Ok (None, snd p)
    else let* v := need (fst p) in
         match v with
         | RFrame f => Ok (Some f, snd p)
         | _ => let* c := to_col (snd p) v in
                Ok (Some (col_to_frame c (match snd i with Some aka => aka | None => text (fst i) end)), snd p)
         end.
  (** visitTableIdentifierExpr, visitCartesianExpr, 485-518 *)
  Fixpoint visit_from (r : tref) (rs : list tref) (s : st) : outcome (frame V * st) :=
    let* p := visit_ref r s in
    match rs with
    | [] => Ok p
    | r' :: rs => let* q := visit_from r' rs (snd p) in let* f := cartesian (fst p) (fst q) in Ok (f, snd q)
    end.
  (** getCompareEnum, 264-292 *)
  Definition compare_enum (op : binop) : outcome binop :=
    match op with BEq | BLt | BLe | BGt | BGe | BNe => Ok op | BBang => Ok BNe | _ => Throw end.
  (** 547-560: the i-th pair of identifiers and the i-th operator that is there *)
  Fixpoint join_conds (s : st) (ps : list (ident * ident)) (cmps : list binop) : outcome (list (string * binop * string)) :=
    match ps with
    | [] => Ok []
    | (l, r) :: ps =>
        let* ln := visit_ident_name l s in let* rn := visit_ident_name r s in
        match cmps with
        | [] => UB                                                            (* CMP_OP(i) is null *)
        | op :: cmps => let* op := compare_enum op in let* rest := join_conds s ps cmps in Ok ((ln, op, rn) :: rest)
        end
    end.
  (** visitInnerJoin, 521-567; the identifier called rhs is the first one *)
  Definition visit_join (j : join) (s : st) : outcome st :=
    let* p := visit_ref (j_ref j) s in
    let '(l, op, r) := j_first j in
    let* f := (match op, j_more j with
               | BEq, [] => let* ln := visit_ident_name l (snd p) in let* rn := visit_ident_name r (snd p) in inner_join (cur (snd p)) (fst p) ln rn
               | _, _ => let* conds := join_conds (snd p) ((l, r) :: map (fun m => (fst (fst m), snd m)) (j_more j)) (op :: omap (fun m => snd (fst m)) (j_more j)) in
                         theta_join (cur (snd p)) (fst p) conds
               end) in
    Ok (set_cur (snd p) f).
  Fixpoint visit_joins (js : list join) (s : st) : outcome st := match js with [] => Ok s | j :: js => let* s := visit_join j s in visit_joins js s end.
  (** visitWhereClause, 569-583, and visitHavingClause with code generation, 624-640 *)
  Definition visit_where (e : expr V) (s : st) : outcome st :=
    let* p := visit e s in let* v := need (fst p) in let* c := to_col (snd p) v in let* f := filter_row (cur (snd p)) c in Ok (set_cur (snd p) f).
  (** 600-603 *)
  Fixpoint add_keys (is : list ident) (s : st) : outcome st :=
    match is with [] => Ok s | i :: is => let* l := visit_ident_name i s in add_keys is (add_key s l (ident_text (fst i) (snd i))) end.
  Fixpoint scan_items (is : list (item V)) (s : st) : outcome st := match is with [] => Ok s | i :: is => let* p := visit_item i s in scan_items is (snd p) end.
  (** visitOrderByClause, 642-668 *)
  Fixpoint order_keys (os : list (ident * bool)) (s : st) : outcome (list (nat * bool)) :=
    match os with [] => Ok [] | (i, asc) :: os => let* l := visit_ident_name i s in let* k := col_idx (cur s) l in let* ks := order_keys os s in Ok ((k, asc) :: ks) end.
  (** 382-397 *)
  Fixpoint visit_items (is : list (item V)) (f : frame V) (s : st) : outcome (frame V * st) :=
    match is with [] => Ok (f, s) | i :: is => let* p := visit_item i s in let* g := need (fst p) in let* h := col_bind f g in visit_items is h (snd p) end.

  (** visitSelect, 333-405, and visitGroupByClause, 586-622 *)
  Definition visit_tables (q : query V) (s : st) : outcome st :=
    let* p := visit_from (q_from q) (q_froms q) (set_flags s true (grp s) (agg s)) in
    let* s := visit_joins (q_joins q) (set_cur (snd p) (fst p)) in
    match q_where q with Some e => visit_where e s | None => Ok s end.
  Definition visit_group (q : query V) (s : st) : outcome st :=
    match q_group q with
    | None => Ok s
    | Some (k, ks, having) =>
        let* s := add_keys (k :: ks) (set_flags s false true (agg s)) in
        let* s := (match having with Some e => let* p := visit e s in Ok (snd p) | None => Ok s end) in
        let* s := scan_items (q_item q :: q_items q) s in
        let s := set_flags s true (grp s) (agg s) in
        let* f := group_frame (cur s) (gname s) (cname s) (fname s) in
        match having with Some e => visit_where e (set_cur s f) | None => Ok (set_cur s f) end
    end.
  Definition visit_order (q : query V) (s : st) : outcome st :=
    match q_order q with
    | Some os => let* ks := order_keys os s in let* f := order_frame (cur s) ks in Ok (set_cur s f)
    | None => Ok s
    end.
  (** visitDistinctExpr, 460-481 *)
  Definition visit_distinct (s : st) : outcome (frame V) :=
    match grp s, cname s with
    | true, _ :: _ => Throw
    | true, [] => Ok (cur s)
    | false, _ :: _ => Ok (cur s)
    | false, [] => group_frame (cur s) ["*"] [] []
    end.
  Definition start : st := mkSt [] [] [] [] [] [] [] [] 0 0 false false false (mkFrame [] []).
  Definition run_sql (q : query V) : outcome (frame V) :=
    let* s := visit_tables q start in
    let* s := visit_group q s in
    let* s := visit_order q s in
    let* p := visit_item (q_item q) s in
    let* f := need (fst p) in
    let* r := visit_items (q_items q) f (snd p) in
    if q_distinct q then visit_distinct (set_cur (snd r) (fst r)) else Ok (fst r).
End model.
