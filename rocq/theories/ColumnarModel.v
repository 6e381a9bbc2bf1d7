(** Model of the columnar operators (src/runtime/local/kernels/ColSelectCmp.h, ColProject.h, ColIntersect.h, ColMerge.h, ColJoin.h,
    ColSemiJoin.h, ColGroupFirst.h, ColGroupNext.h, ColAggGrp.h) and of the code they replace matrix and frame operations with
    (src/compiler/lowering/RewriteToColumnarOpsPass.cpp).

    A column is the list of its values; positions and group ids are int64, given as mathematical integers. Result pointers are null on
    entry; [junk n] are the contents of a new array of n elements. Simplifications: keys are compared by equality (the maps of the kernels use the
    hash and the order of the value type, for which not-a-number is not modelled); hash maps are association lists; the frames are those of
    [JoinModel]; a label is never of the form x.*, which extracting a column treats in a special way. *)
From stdpp Require Import base numbers list.
From Verif Require Import CppBase Mem BitmapModel OrderModel JoinModel.

Section Kernels.
  Context (junk : nat -> list Z).

  (** ** Selection *)
  Inductive cmp := CEq | CNeq | CGt | CGe | CLt | CLe.
  (** the operators ==, !=, >, >=, <, <= on a value of the column and the scalar *)
  Record cmps (V W : Type) := mkCmps { c_eq : V -> W -> bool; c_ne : V -> W -> bool; c_gt : V -> W -> bool; c_ge : V -> W -> bool; c_lt : V -> W -> bool; c_le : V -> W -> bool }.
  (** ColSelectCmp.h 64-84 *)
  Definition cmp_func {V W} (o : cmps V W) (op : cmp) : V -> W -> bool :=
    match op with CEq => c_eq _ _ o | CNeq => c_ne _ _ o | CGt => c_gt _ _ o | CGe => c_ge _ _ o | CLt => c_lt _ _ o | CLe => c_le _ _ o end.
  (** ColSelectCmp.h 54-94 *)
  Definition col_select {V W} (o : cmps V W) (op : cmp) (lhs : list V) (rhs : W) : outcome (list Z) :=
    let n := length lhs in
    let* s := for_up 0 n (fun r (s : list Z * nat) =>
      let* v := rd lhs r in
      if cmp_func o op v rhs then let* b := wr (fst s) (snd s) (Z.of_nat r) in Ok (b, snd s + 1) else Ok s) (junk n, 0) in
    Ok (take (snd s) (fst s)).

  (** ColProject.h 53-70 *)
  Definition col_project {V} (jv : nat -> list V) (lhs : list V) (pos : list Z) : outcome (list V) :=
    for_up 0 (length pos) (fun r b =>
      let* p := rd pos r in
      if decide (p < 0)%Z then Throw else if decide (length lhs <= to_size p) then Throw else
      let* v := rd lhs (to_size p) in wr b r v) (jv (length pos)).

  (** ** Sets of positions *)
  (** ColIntersect.h 65-76: at most [fuel] iterations; [i], [j], [k]: positions in the two arguments and in the result *)
  Fixpoint intersect_loop (fuel : nat) (lhs rhs : list Z) (i j k : nat) (b : list Z) : outcome (option (list Z * nat)) :=
    if decide (i < length lhs /\ j < length rhs) then
      match fuel with O => Ok None | S fuel =>
        let* x := rd lhs i in let* y := rd rhs j in
        if decide (x < y)%Z then intersect_loop fuel lhs rhs (i + 1) j k b
        else if decide (y < x)%Z then intersect_loop fuel lhs rhs i (j + 1) k b
        else let* b := wr b k x in intersect_loop fuel lhs rhs (i + 1) (j + 1) (k + 1) b
      end
    else Ok (Some (b, k)).
  (** ColIntersect.h 51-79 *)
  Definition col_intersect (fuel : nat) (lhs rhs : list Z) : outcome (option (list Z)) :=
    let? s := intersect_loop fuel lhs rhs 0 0 0 (junk (length lhs `min` length rhs)) in Ok (Some (take (snd s) (fst s))).

  (** ColMerge.h 65-78 *)
  Fixpoint merge_loop (fuel : nat) (lhs rhs : list Z) (i j k : nat) (b : list Z) : outcome (option (nat * nat * nat * list Z)) :=
    if decide (i < length lhs /\ j < length rhs) then
      match fuel with O => Ok None | S fuel =>
        let* x := rd lhs i in let* y := rd rhs j in
        if decide (x < y)%Z then let* b := wr b k x in merge_loop fuel lhs rhs (i + 1) j (k + 1) b
        else if decide (y < x)%Z then let* b := wr b k y in merge_loop fuel lhs rhs i (j + 1) (k + 1) b
        else let* b := wr b k x in merge_loop fuel lhs rhs (i + 1) (j + 1) (k + 1) b
      end
    else Ok (Some (i, j, k, b)).
  (** ColMerge.h 80-84, 85-89: the rest of one argument; the state is the array and the position in it *)
  Definition copy_rest (src : list Z) (i : nat) (s : list Z * nat) : outcome (list Z * nat) :=
    for_up i (length src) (fun r s => let* x := rd src r in let* b := wr (fst s) (snd s) x in Ok (b, snd s + 1)) s.
  (** ColMerge.h 51-92 *)
  Definition col_merge (fuel : nat) (lhs rhs : list Z) : outcome (option (list Z)) :=
    let? s := merge_loop fuel lhs rhs 0 0 0 (junk (length lhs + length rhs)) in
    let '(i, j, k, b) := s in
    let* t := copy_rest lhs i (b, k) in
    let* t := copy_rest rhs j t in
    Ok (Some (take (snd t) (fst t))).

  (** ** Joins; [numRes] is None for -1 *)
  Section Joins.
    Context {V : Type} `{EqDecision V}.
    (** ht[k] = r *)
    Fixpoint ht_set (k : V) (r : Z) (m : list (V * Z)) : list (V * Z) :=
      match m with [] => [(k, r)] | (k', r') :: m' => if decide (k' = k) then (k', r) :: m' else (k', r') :: ht_set k r m' end.
    (** ht.find(k) *)
    Fixpoint ht_find (k : V) (m : list (V * Z)) : option Z :=
      match m with [] => None | (k', r) :: m' => if decide (k' = k) then Some r else ht_find k m' end.
    (** ColJoin.h 56-92 *)
    Definition col_join (lhs rhs : list V) (numRes : option nat) : outcome (list Z * list Z) :=
      let n := match numRes with None => length lhs | Some n => n end in
      let* ht := for_up 0 (length rhs) (fun r ht => let* v := rd rhs r in Ok (ht_set v (Z.of_nat r) ht)) [] in
      let* s := for_up 0 (length lhs) (fun r (s : list Z * list Z * nat) =>
        let '(b, c, k) := s in
        let* v := rd lhs r in
        match ht_find v ht with
        | Some p => let* b := wr b k (Z.of_nat r) in let* c := wr c k p in Ok (b, c, k + 1)
        | None => Ok s
        end) (junk n, junk n, 0) in
      let '(b, c, k) := s in Ok (take k b, take k c).
    (** ColSemiJoin.h 55-82 *)
    Definition col_semi_join (lhs rhs : list V) (numRes : option nat) : outcome (list Z) :=
      let n := match numRes with None => length lhs | Some n => n end in
      let* hs := for_up 0 (length rhs) (fun r hs => let* v := rd rhs r in Ok (if decide (v ∈ hs) then hs else v :: hs)) [] in
      let* s := for_up 0 (length lhs) (fun r (s : list Z * nat) =>
        let* v := rd lhs r in
        if decide (v ∈ hs) then let* b := wr (fst s) (snd s) (Z.of_nat r) in Ok (b, snd s + 1) else Ok s) (junk n, 0) in
      Ok (take (snd s) (fst s)).

    (** ** Grouping *)
    (** grpIds[k], which creates the entry 0 for a new key: the entry, and the map *)
    Fixpoint ht_at (k : V) (m : list (V * Z)) : Z * list (V * Z) :=
      match m with
      | [] => (0%Z, [(k, 0%Z)])
      | (k', r) :: m' => if decide (k' = k) then (r, m) else let '(x, m'') := ht_at k m' in (x, (k', r) :: m'')
      end.
    (** ColGroupFirst.h 53-78, and ColGroupNext.h 65-88 with pairs as keys: group ids and the positions of the representatives *)
    Definition col_group (arg : list V) : outcome (list Z * list Z) :=
      let n := length arg in
      let* s := for_up 0 n (fun r (s : list (V * Z) * list Z * list Z * nat) =>
        let '(ht, ids, repr, k) := s in
        let* v := rd arg r in
        let '(g, ht) := ht_at v ht in
        if decide (g = 0)%Z then
          let g := Z.of_nat (length ht) in
          let* repr := wr repr k (Z.of_nat r) in
          let* ids := wr ids r (g - 1)%Z in Ok (ht_set v g ht, ids, repr, k + 1)
        else let* ids := wr ids r (g - 1)%Z in Ok (ht, ids, repr, k)) ([], junk n, junk n, 0) in
      let '(_, ids, repr, k) := s in Ok (ids, take k repr).
    (** ColGroupNext.h 58-89 *)
    Definition col_group_next (arg : list V) (ids : list Z) (group : list (V * Z) -> outcome (list Z * list Z)) : outcome (list Z * list Z) :=
      if decide (length arg <> length ids) then Throw else group (zip arg ids).
  End Joins.

  (** ColAggGrp.h 52-63, 161-191 for a pure binary reduction without optimistic splitting: [neutral] and [func] are the neutral element and the binary function of
      the aggregation *)
  Definition col_agg {V} (neutral : V) (func : V -> V -> V) (data : list V) (ids : list Z) (numDistinct : nat) : outcome (list V) :=
    if decide (length data <> length ids) then Throw else
    for_up 0 (length data) (fun r res =>
      let* g := rd ids r in
      if decide (g < 0 \/ Z.of_nat numDistinct < g)%Z then Throw else
      let* old := rd res (Z.to_nat g) in
      let* v := rd data r in
      wr res (Z.to_nat g) (func old v)) (replicate numDistinct neutral).
End Kernels.
Arguments mkCmps {_ _}. Arguments c_eq {_ _}. Arguments c_ne {_ _}. Arguments c_gt {_ _}. Arguments c_ge {_ _}. Arguments c_lt {_ _}. Arguments c_le {_ _}.

(** * The code the operations are replaced with *)
(** CastObj.h 414-443: a matrix with one column as a column *)
Definition to_col {V} (a : dmat V) : outcome (list V) :=
  if decide (m_cols a <> 1) then Throw else
  for_up 0 (m_rows a) (fun r l => let* v := dm_at a r 0 in Ok (l ++ [v])) [].
(** CastObj.h 449-455 *)
Definition of_col {V} (l : list V) : dmat V := mkDM l 0 (length l) 1 1.

Section Rewrites.
  Context (junk : nat -> list Z).
  (** the comparison operations of the intermediate representation; RewriteToColumnarOpsPass.cpp 241-252 *)
  Inductive ew_cmp := EwEq | EwNeq | EwGt | EwGe | EwLt | EwLe.
  Definition col_cmp (op : ew_cmp) : cmp := match op with EwEq => CEq | EwNeq => CNeq | EwGt => CGt | EwGe => CGe | EwLt => CLt | EwLe => CLe end.
  (** RewriteToColumnarOpsPass.cpp 75-104 *)
  Definition rw_compare {V W} (o : cmps V W) (op : ew_cmp) (a : dmat V) (w : W) : outcome (dmat Z) :=
    let* l := to_col a in
    let* ps := col_select junk o (col_cmp op) l w in
    pos_to_bitmap (of_col ps) (m_rows a).
  (** RewriteToColumnarOpsPass.cpp 253-256, 106-136 *)
  Inductive ew_log := EwAnd | EwOr.
  Definition rw_logical (fuel : nat) (op : ew_log) (a b : dmat Z) : outcome (option (dmat Z)) :=
    let* p := bitmap_to_pos (junk (m_rows a)) a in
    let* q := bitmap_to_pos (junk (m_rows b)) b in
    let* p := to_col p in
    let* q := to_col q in
    let? ps := (match op with EwAnd => col_intersect junk fuel p q | EwOr => col_merge junk fuel p q end) in
    let* r := pos_to_bitmap (of_col ps) (m_rows a) in Ok (Some r).

  Context {V L : Type} `{EqDecision V} `{EqDecision L} (jv : nat -> list V).
  (** ExtractCol.h 116-143 with a label, CastObj.h 461-480: one column of a frame *)
  Definition frame_col (f : frame V L) (l : L) : outcome (vtc * list V) :=
    let* i := col_idx f l in let* c := rd (f_cols f) i in
    if decide (f_rows f <= length (c_cells c)) then Ok (c_ty c, take (f_rows f) (c_cells c)) else UB.
  (** RewriteToColumnarOpsPass.cpp 52-73: projectAllColumns *)
  Fixpoint project_all (f : frame V L) (ps : list Z) (labels : list L) : outcome (list (col V L)) :=
    match labels with
    | [] => Ok []
    | l :: labels =>
        let* c := frame_col f l in
        let* r := col_project jv (snd c) ps in
        let* rest := project_all f ps labels in Ok (mkCol (fst c) l r :: rest)
    end.
  (** CreateFrame.h, Frame.h 214-243: a frame from columns; they must have the same number of rows and different labels, and there must be one *)
  Definition make_frame (cols : list (col V L)) : outcome (frame V L) :=
    match cols with
    | [] => Throw
    | c :: _ => if decide (Forall (fun d => length (c_cells d) = length (c_cells c)) cols) then
                  if decide (NoDup (c_label <$> cols)) then Ok (mkFrame (length (c_cells c)) cols) else Throw
                else Throw
    end.
  Definition labels (f : frame V L) : list L := c_label <$> f_cols f.
  (** RewriteToColumnarOpsPass.cpp 138-173, 267-272: selecting rows by position. The labels known to the compiler are those of the frame. *)
  Definition rw_extract (f : frame V L) (sel : dmat Z) : outcome (frame V L) :=
    let* ps := to_col sel in
    let* cols := project_all f ps (labels f) in make_frame cols.
  (** RewriteToColumnarOpsPass.cpp 257-266: selecting rows by a bitmap *)
  Definition rw_filter (f : frame V L) (sel : dmat Z) : outcome (frame V L) :=
    let* p := bitmap_to_pos (junk (m_rows sel)) sel in rw_extract f p.
  (** RewriteToColumnarOpsPass.cpp 279-323 *)
  Definition rw_inner_join (lhs rhs : frame V L) (lhsOn rhsOn : L) (numRes : option nat) : outcome (frame V L) :=
    let* lk := frame_col lhs lhsOn in
    let* rk := frame_col rhs rhsOn in
    let* ps := col_join junk (snd lk) (snd rk) numRes in
    let* cl := project_all lhs (fst ps) (labels lhs) in
    let* cr := project_all rhs (snd ps) (labels rhs) in
    make_frame (cl ++ cr).
  (** RewriteToColumnarOpsPass.cpp 324-367: the frame, and the positions as a matrix with one column *)
  Definition rw_semi_join (lhs rhs : frame V L) (lhsOn rhsOn : L) (numRes : option nat) : outcome (frame V L * list Z) :=
    let* lk := frame_col lhs lhsOn in
    let* rk := frame_col rhs rhsOn in
    let* ps := col_semi_join junk (snd lk) (snd rk) numRes in
    let* cl := project_all lhs ps (labels lhs) in
    let* res := make_frame cl in Ok (res, ps).

  (** RewriteToColumnarOpsPass.cpp 393-402: the further keys *)
  Fixpoint group_more (f : frame V L) (keys : list L) (s : list Z * list Z) : outcome (list Z * list Z) :=
    match keys with
    | [] => Ok s
    | k :: keys =>
        let* c := frame_col f k in
        let* s := col_group_next (snd c) (fst s) (col_group junk) in
        group_more f keys s
    end.
  (** RewriteToColumnarOpsPass.cpp 416-430: the sums; [sum_label l] is the string SUM(l) *)
  Fixpoint group_sums (zero : V) (add : V -> V -> V) (sum_label : L -> L) (f : frame V L) (ids : list Z) (n : nat) (aggs : list L) : outcome (list (col V L)) :=
    match aggs with
    | [] => Ok []
    | l :: aggs =>
        let* c := frame_col f l in
        let* r := col_agg zero add (snd c) ids n in
        let* rest := group_sums zero add sum_label f ids n aggs in Ok (mkCol (fst c) (sum_label l) r :: rest)
    end.
  (** RewriteToColumnarOpsPass.cpp 368-437, for grouped sums without optimistic splitting *)
  Definition rw_group (zero : V) (add : V -> V -> V) (sum_label : L -> L) (f : frame V L) (keys aggs : list L) : outcome (frame V L) :=
    match keys with
    | [] => UB
    | k :: more =>
        let* c := frame_col f k in
        let* s := col_group junk (snd c) in
        let* s := group_more f more s in
        let* ck := project_all f (snd s) keys in
        let* ca := group_sums zero add sum_label f (fst s) (length (snd s)) aggs in
        make_frame (ck ++ ca)
    end.
End Rewrites.
