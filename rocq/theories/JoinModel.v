(** Model of src/runtime/local/kernels/InnerJoin.h and SemiJoin.h, and of the parts of
    src/runtime/local/datastructures/Frame.h they use. A value type is one of the types the joins know, or another one. All values live
    in one type [V]; keys are strings or int64, for which == is equality. Result pointers are null on entry; sizes do not overflow. *)
From stdpp Require Import base numbers list.
From Verif Require Import CppBase OrderModel.

(** Frame.h 41-: ValueTypeCode *)
Inductive vtc := TStr | TI64 | TF64 | TOther (k : nat).
Global Instance vtc_eq_dec : EqDecision vtc.
Proof. solve_decision. Defined.

Section Join.
  Context {V L : Type} `{EqDecision V} `{EqDecision L}.
  (** One column of a frame: type, label, array (at least as long as the frame has rows). *)
  Record col := mkCol { c_ty : vtc; c_label : L; c_cells : list V }.
  Record frame := mkFrame { f_rows : nat; f_cols : list col }.

  (** Frame.h 335-355 getColumnIdx *)
  Definition col_idx (f : frame) (l : L) : outcome nat :=
    match list_find (fun c => c_label c = l) (f_cols f) with Some (i, _) => Ok i | None => Throw end.
  (** Frame.h 357-363 getColumnType *)
  Definition col_type (f : frame) (l : L) : outcome vtc := let* i := col_idx f l in let* c := rd (f_cols f) i in Ok (c_ty c).
  (** Frame.h 365-371 getColumn<VT>(idx) followed by DenseMatrix::get(row, 0), which checks the row *)
  Definition get_cell (t : vtc) (f : frame) (i row : nat) : outcome V :=
    let* c := rd (f_cols f) i in
    if decide (c_ty c <> t) then Throw else if decide (f_rows f <= row) then Throw else rd (c_cells c) row.
  (** getColumn<VT>(idx) followed by DenseMatrix::set(row, 0, v) *)
  Definition set_cell (t : vtc) (f : frame) (i row : nat) (v : V) : outcome frame :=
    let* c := rd (f_cols f) i in
    if decide (c_ty c <> t) then Throw else if decide (f_rows f <= row) then Throw else
    let* b := wr (c_cells c) row v in
    let* cs := wr (f_cols f) i (mkCol (c_ty c) (c_label c) b) in Ok (mkFrame (f_rows f) cs).
  (** Frame.h 96-104, 134-161: create a frame with uninitialised arrays; labels must be unique *)
  Definition create_frame (junk : nat -> nat -> list V) (rows : nat) (schema : list vtc) (labels : list L) : outcome frame :=
    if decide (NoDup labels) then Ok (mkFrame rows (imap (fun i tl => mkCol (fst tl) (snd tl) (junk i rows)) (zip schema labels))) else Throw.

  (** InnerJoin.h 39-56: innerJoinSet<VTCol> *)
  Definition join_set (t ty : vtc) (res arg : frame) (toRow toCol fromRow fromCol : nat) : outcome frame :=
    if decide (ty = t) then let* v := get_cell t arg fromCol fromRow in set_cell t res toCol toRow v else Ok res.

  (** InnerJoin.h 58-71: BuildHashRhs *)
  Fixpoint push (k : V) (r : nat) (m : list (V * list nat)) : list (V * list nat) :=
    match m with [] => [(k, [r])] | (k', rs) :: m' => if decide (k' = k) then (k', rs ++ [r]) :: m' else (k', rs) :: push k r m' end.
  Fixpoint find_rows (k : V) (m : list (V * list nat)) : option (list nat) :=
    match m with [] => None | (k', rs) :: m' => if decide (k' = k) then Some rs else find_rows k m' end.
  Definition build (t : vtc) (rhs : frame) (on : L) : outcome (list (V * list nat)) :=
    let* i := col_idx rhs on in
    let* c := rd (f_cols rhs) i in
    if decide (c_ty c <> t) then Throw else
    for_up 0 (f_rows rhs) (fun r m => let* k := get_cell t rhs i r in Ok (push k r m)) [].

  (** InnerJoin.h 97-124: one result row; the state is the result frame and col_idx_res *)
  Definition copy_cols (schema : list vtc) (arg : frame) (toRow fromRow : nat) (s : frame * nat) : outcome (frame * nat) :=
    for_up 0 (length (f_cols arg)) (fun c (s : frame * nat) =>
      let '(res, k) := s in
      let* ty := rd schema k in
      let* res := join_set TStr ty res arg toRow k fromRow c in
      let* res := join_set TI64 ty res arg toRow k fromRow c in
      let* res := join_set TF64 ty res arg toRow k fromRow c in
      Ok (res, k + 1)) s.
  Definition emit (schema : list vtc) (lhs rhs : frame) (l r : nat) (s : frame * nat) : outcome (frame * nat) :=
    let '(res, row) := s in
    let* s := copy_cols schema lhs row l (res, 0) in
    let* s := copy_cols schema rhs row r s in
    Ok (fst s, row + 1).
  (** InnerJoin.h 73-131: ProbeHashLhs; the result is the frame and row_idx_res *)
  Definition probe (t : vtc) (schema : list vtc) (lhs rhs : frame) (on : L) (m : list (V * list nat)) (res : frame) : outcome (frame * nat) :=
    let* i := col_idx lhs on in
    let* c := rd (f_cols lhs) i in
    if decide (c_ty c <> t) then Throw else
    for_up 0 (f_rows lhs) (fun l s =>
      let* k := get_cell t lhs i l in
      match find_rows k m with
      | Some rs => over (fun r s => emit schema lhs rhs l r s) rs s
      | None => Ok s
      end) (res, 0).

  (** InnerJoin.h 137-194: innerJoin. [numRowRes] is [None] for -1. *)
  Definition inner_join (junk : nat -> nat -> list V) (lhs rhs : frame) (lhsOn rhsOn : L) (numRowRes : option nat) : outcome frame :=
    let* tl := col_type lhs lhsOn in
    let total := match numRowRes with None => f_rows rhs * f_rows lhs | Some n => n end in
    let schema := (c_ty <$> f_cols lhs) ++ (c_ty <$> f_cols rhs) in
    let labels := (c_label <$> f_cols lhs) ++ (c_label <$> f_cols rhs) in
    let* res := create_frame junk total schema labels in
    let t := if decide (tl = TStr) then TStr else TI64 in
    let* m := build t rhs rhsOn in
    let* s := probe t schema lhs rhs lhsOn m res in
    Ok (mkFrame (snd s) (f_cols (fst s))).

  (** SemiJoin.h 41-101: semiJoinCol on the two key columns. [st]: the result objects if they exist already: the arrays of the value
      and of the tid column and their number of rows. *)
  Definition semi_col (jv : nat -> list V) (jt : nat -> list nat) (numRowRes : option nat) (lk rk : list V)
      (st : option (list V * list nat * nat)) : outcome (list V * list nat * nat) :=
    let* hs := for_up 0 (length rk) (fun i hs => let* v := rd rk i in Ok (if decide (v ∈ hs) then hs else v :: hs)) [] in
    let n := match st with Some (_, _, n) => n | None => match numRowRes with None => length lk | Some n => n end end in
    let vt := match st with Some (vs, ts, _) => (vs, ts) | None => (jv n, jt n) end in
    for_up 0 (length lk) (fun i (s : list V * list nat * nat) =>
      let '(vs, ts, pos) := s in
      let* v := rd lk i in
      if decide (v ∈ hs) then
        if decide (n <= pos) then Throw else
        let* vs := wr vs pos v in
        let* ts := wr ts pos i in Ok (vs, ts, pos + 1)
      else Ok s) (fst vt, snd vt, 0).
  (** SemiJoin.h 103-154: the same instantiation of semiJoinColIf is called twice; for other types nothing is created and
      res->setLabels dereferences null. *)
  Definition semi_join (jv : nat -> list V) (jt : nat -> list nat) (lhs rhs : frame) (lhsOn rhsOn : L) (numRowRes : option nat) : outcome (list V * list nat) :=
    let* tl := col_type lhs lhsOn in
    let* tr := col_type rhs rhsOn in
    let* i := col_idx lhs lhsOn in
    let* j := col_idx rhs rhsOn in
    let* cl := rd (f_cols lhs) i in
    let* cr := rd (f_cols rhs) j in
    if decide (tl = TI64 /\ tr = TI64) then
      let lk := take (f_rows lhs) (c_cells cl) in
      let rk := take (f_rows rhs) (c_cells cr) in
      let* s := semi_col jv jt numRowRes lk rk None in
      let* s := semi_col jv jt numRowRes lk rk (Some s) in
      let '(vs, ts, n) := s in Ok (take n vs, take n ts)
    else UB.
End Join.
Arguments col : clear implicits. Arguments frame : clear implicits.
