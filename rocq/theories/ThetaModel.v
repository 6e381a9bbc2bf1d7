(** Model of src/runtime/local/kernels/ThetaJoin.h and Cartesian.h. All values live in one type [V]; a comparison and a static_cast are given
    for the numeric value types. Frames as in JoinModel, but with all value types. Result pointers are null on entry; sizes do not overflow;
    memory that is not written keeps arbitrary contents [junk]. *)
From stdpp Require Import base numbers list.
From Verif Require Import CppBase.

(** ValueTypeCode.h *)
Inductive vt := SI8 | SI32 | SI64 | UI8 | UI32 | UI64 | F32 | F64 | STR | FIXEDSTR16.
Global Instance vt_eq_dec : EqDecision vt.
Proof. solve_decision. Defined.
(** DeduceType.h 77-139: the types for which an instance is called; std::runtime_error for the others *)
Definition deducible (t : vt) : bool := match t with STR | FIXEDSTR16 => false | _ => true end.
(** CompareOperation, DaphneOps.td *)
Inductive cmp := Equal | LessThan | LessEqual | GreaterThan | GreaterEqual | NotEqual.

Section theta.
  Context {V L : Type} `{EqDecision L}.
  (** the comparison of two values of one type, static_cast<to>(v) of a value of type [from] *)
  Context (cmpv : vt -> cmp -> V -> V -> bool) (conv : vt -> vt -> V -> V).
  Record col := mkCol { c_ty : vt; c_label : L; c_cells : list V }.
  Record frame := mkFrame { f_rows : nat; f_cols : list col }.
  (** Frame.h 335-355 getColumnIdx *)
  Definition col_idx (f : frame) (l : L) : outcome nat :=
    match list_find (fun c => c_label c = l) (f_cols f) with Some (i, _) => Ok i | None => Throw end.
  (** Frame.h 96-104, 134-161: the labels must be unique *)
  Definition create_frame (junk : nat -> nat -> list V) (rows : nat) (schema : list vt) (labels : list L) : outcome frame :=
    if decide (NoDup labels) then Ok (mkFrame rows (imap (fun i tl => mkCol (fst tl) (snd tl) (junk rows i)) (zip schema labels))) else Throw.

  (** Equation, ThetaJoin.h 61-71; addEquation, 85-96 *)
  Record equation := mkEq { e_lhs : nat; e_rhs : nat; e_cmp : cmp }.
  Fixpoint equations (lhs rhs : frame) (on : list (L * L * cmp)) : outcome (list equation) :=
    match on with
    | [] => Ok []
    | (l, r, c) :: on => let* i := col_idx lhs l in let* j := col_idx rhs r in let* es := equations lhs rhs on in Ok (mkEq i j c :: es)
    end.
  (** compareValues, 237-270 *)
  Definition compare_values (tl tr : vt) (a b : V) (c : cmp) : bool := if decide (tl = tr) then cmpv tl c a b else cmpv tl c a (conv tr tl b).
  (** ResultContainer, 161-213: the array of positions, readOffset, writeOffset, size_ *)
  Record positions := mkPos { p_mem : list (nat * nat); p_read : nat; p_write : nat; p_size : nat }.
  (** 186-193: set checks the row *)
  Definition add_pos (p : positions) (l r : nat) : outcome positions :=
    if decide (p_write p < length (p_mem p)) then Ok (mkPos (<[p_write p := (l, r)]> (p_mem p)) (p_read p) (p_write p + 1) (p_size p)) else Throw.
  (** 195-203 *)
  Definition read_next (p : positions) : outcome ((nat * nat) * positions) :=
    match p_mem p !! p_read p with Some x => Ok (x, mkPos (p_mem p) (p_read p + 1) (p_write p) (p_size p)) | None => Throw end.
  (** 205-208 *)
  Definition finalize (p : positions) : positions := mkPos (p_mem p) 0 0 (p_write p).
  (** CompareColumnPair::apply, 295-335; [depth] tells whether it is the first equation *)
  Definition compare_pair (tl tr : vt) (ld rd_ : list V) (c : cmp) (l r : nat) (p : positions) : outcome positions :=
    let* a := rd ld l in let* b := rd rd_ r in
    if compare_values tl tr a b c then add_pos p l r else Ok p.
  Definition compare_columns (junk : list (nat * nat)) (lhs rhs : frame) (e : equation) (pos : option positions) : outcome positions :=
    let* cl := rd (f_cols lhs) (e_lhs e) in let* cr := rd (f_cols rhs) (e_rhs e) in
    if negb (deducible (c_ty cl)) || negb (deducible (c_ty cr)) then Throw else
    let* p := (match pos with
      | None => for_up 0 (f_rows lhs) (fun l p => for_up 0 (f_rows rhs) (fun r p => compare_pair (c_ty cl) (c_ty cr) (c_cells cl) (c_cells cr) (e_cmp e) l r p) p) (mkPos junk 0 0 0)
      | Some p => for_up 0 (p_size p) (fun _ p => let* x := read_next p in compare_pair (c_ty cl) (c_ty cr) (c_cells cl) (c_cells cr) (e_cmp e) (fst (fst x)) (snd (fst x)) (snd x)) p
      end) in
    Ok (finalize p).
  (** 366-376 *)
  Fixpoint compare_all (junk : list (nat * nat)) (lhs rhs : frame) (es : list equation) (pos : option positions) : outcome (option positions) :=
    match es with [] => Ok pos | e :: es => let* p := compare_columns junk lhs rhs e pos in compare_all junk lhs rhs es (Some p) end.
  (** WriteColumn::apply, 216-233 *)
  Definition write_column (p : positions) (side : nat * nat -> nat) (inc outc : col) : outcome col :=
    if negb (deducible (c_ty inc)) then Throw else
    let* cs := for_up 0 (p_size p) (fun i out => match p_mem p !! i with Some x => let* v := rd (c_cells inc) (side x) in wr out i v | None => Throw end) (c_cells outc) in
    Ok (mkCol (c_ty outc) (c_label outc) cs).
  Fixpoint write_columns (p : positions) (side : nat * nat -> nat) (ins outs : list col) : outcome (list col) :=
    match ins, outs with
    | i :: ins, o :: outs => let* c := write_column p side i o in let* cs := write_columns p side ins outs in Ok (c :: cs)
    | _, _ => Ok []
    end.
  (** ThetaJoin::apply, 340-396. The lists of the names and of the comparisons have the same length. *)
  Definition theta_join (posjunk : nat -> list (nat * nat)) (junk : nat -> nat -> list V) (lhs rhs : frame) (on : list (L * L * cmp)) : outcome frame :=
    let* es := equations lhs rhs on in
    let* pos := compare_all (posjunk (f_rows lhs * f_rows rhs)) lhs rhs es None in
    match pos with
    | None => UB                                                              (* 379: resultPositions is null *)
    | Some p =>
        let n := length (f_cols lhs) in
        let* res := create_frame junk (p_size p) (map c_ty (f_cols lhs) ++ map c_ty (f_cols rhs)) (map c_label (f_cols lhs) ++ map c_label (f_cols rhs)) in
        let* ls := write_columns p fst (f_cols lhs) (take n (f_cols res)) in
        let* rs := write_columns p snd (f_cols rhs) (drop n (f_cols res)) in
        Ok (mkFrame (f_rows res) (ls ++ rs))
    end.

  (** * Cartesian.h *)
  (** cartesianSet, 18-31, for int64_t and double; getColumn<VT> checks the type, get and set the row *)
  Definition cart_set (t ty : vt) (rows : nat) (cols : list col) (arg : frame) (toRow toCol fromRow fromCol : nat) : outcome (list col) :=
    if decide (ty = t) then
      let* a := rd (f_cols arg) fromCol in let* o := rd cols toCol in
      if decide (c_ty a <> t) then Throw else if decide (c_ty o <> t) then Throw
      else if decide (f_rows arg <= fromRow) then Throw else if decide (rows <= toRow) then Throw
      else let* v := rd (c_cells a) fromRow in let* cs := wr (c_cells o) toRow v in wr cols toCol (mkCol (c_ty o) (c_label o) cs)
    else Ok cols.
  (** 66-78 *)
  Definition cart_cols (schema : list vt) (rows : nat) (arg : frame) (toRow fromRow : nat) (s : list col * nat) : outcome (list col * nat) :=
    for_up 0 (length (f_cols arg)) (fun c (s : list col * nat) =>
      let* ty := rd schema (snd s) in
      let* cols := cart_set SI64 ty rows (fst s) arg toRow (snd s) fromRow c in
      let* cols := cart_set F64 ty rows cols arg toRow (snd s) fromRow c in
      Ok (cols, snd s + 1)) s.
  (** 33-81 *)
  Definition cartesian (junk : nat -> nat -> list V) (lhs rhs : frame) : outcome frame :=
    let rows := f_rows rhs * f_rows lhs in
    let schema := map c_ty (f_cols lhs) ++ map c_ty (f_cols rhs) in
    let* res := create_frame junk rows schema (map c_label (f_cols lhs) ++ map c_label (f_cols rhs)) in
    let* s := for_up 0 (f_rows lhs) (fun l s => for_up 0 (f_rows rhs) (fun r (s : list col * nat) =>
      let* t := cart_cols schema rows lhs (snd s) l (fst s, 0) in
      let* t := cart_cols schema rows rhs (snd s) r t in
      Ok (fst t, snd s + 1)) s) (f_cols res, 0) in
    Ok (mkFrame rows (fst s)).
End theta.
Arguments col : clear implicits.
Arguments frame : clear implicits.
