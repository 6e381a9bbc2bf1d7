(** Model of src/runtime/local/kernels/GroupJoin.h, with the frames of JoinModel.v. *)
From stdpp Require Import base numbers list.
From Verif Require Import CppBase OrderModel JoinModel.

Section GroupJoin.
  Context {V L : Type} `{EqDecision V} `{EqDecision L}.
  (** 0 and + in a value type; the addition of integers is undefined if it overflows.  [sum_label l] is the string "SUM(l)". *)
  Context (zero : vtc -> V) (add : vtc -> V -> V -> outcome V) (sum_label : L -> L).
  (** An entry of the hash table (GroupJoin.h 60): key, left row, aggregate, whether there is a right row. *)
  Definition entry : Type := V * (nat * V * bool).
  Definition e_key (e : entry) : V := fst e.
  Definition e_row (e : entry) : nat := fst (fst (snd e)).
  Definition e_agg (e : entry) : V := snd (fst (snd e)).
  Definition e_hit (e : entry) : bool := snd (snd e).
  (** The order in which an std::unordered_map with these entries is iterated *)
  Context (order : list entry -> list entry).

  (** GroupJoin.h 67: ht.emplace does nothing if the key exists. *)
  Definition emplace (t : vtc) (k : V) (i : nat) (m : list entry) : list entry :=
    if decide (k ∈ map e_key m) then m else m ++ [(k, (i, zero t, false))].
  (** GroupJoin.h 74-78 *)
  Fixpoint hit (t : vtc) (k v : V) (m : list entry) : outcome (list entry) :=
    match m with
    | [] => Ok []
    | e :: m =>
        if decide (e_key e = k) then let* s := add t (e_agg e) v in Ok ((e_key e, (e_row e, s, true)) :: m)
        else let* m := hit t k v m in Ok (e :: m)
    end.
  (** GroupJoin.h 62-67, 69-79: the build and the probe phase *)
  Definition table (t : vtc) (lk rk ag : list V) : outcome (list entry) :=
    let* m := for_up 0 (length lk) (fun i m => let* k := rd lk i in Ok (emplace t k i m)) [] in
    for_up 0 (length rk) (fun i m => let* k := rd rk i in let* v := rd ag i in hit t k v m) m.
  (** GroupJoin.h 101-109: one iteration of the loop that writes the results; the state: frame, positions and pos *)
  Definition put_entry (t : vtc) (n : nat) (e : entry) (s : frame V L * list nat * nat) : outcome (frame V L * list nat * nat) :=
    let '(res, tids, pos) := s in
    if e_hit e then
      let* res := set_cell TI64 res 0 pos (e_key e) in
      let* res := set_cell t res 1 pos (e_agg e) in
      if decide (n <= pos) then Throw else
      let* tids := wr tids pos (e_row e) in Ok (res, tids, pos + 1)
    else Ok s.
  (** GroupJoin.h 41-116: groupJoinCol<int64_t, int64_t, VTAgg>.  The arguments are columns of frames.  The frame is created with the labels it
      gets in the end. *)
  Definition group_join_col (junk : nat -> nat -> list V) (jt : nat -> list nat) (t : vtc) (l1 l2 : L) (lk rk ag : list V) : outcome (frame V L * list nat) :=
    if decide (length rk <> length ag) then Throw else
    let* m := table t lk rk ag in
    let n := length (filter (fun e => e_hit e = true) (order m)) in
    let res := mkFrame n [mkCol TI64 l1 (junk 0 n); mkCol t l2 (junk 1 n)] in
    let* s := over (put_entry t n) (order m) (res, jt n, 0) in
    Ok (fst s).
  (** GroupJoin.h 118-136: groupJoinColIf is tried for two combinations of types; 141-167: groupJoin.  For other types there is no result and
      res->setLabels dereferences null.  Frame.h 329-333 (setLabels) throws if the labels are equal. *)
  Definition group_join (junk : nat -> nat -> list V) (jt : nat -> list nat) (lhs rhs : frame V L) (lhsOn rhsOn rhsAgg : L) : outcome (frame V L * list nat) :=
    let* tl := col_type lhs lhsOn in
    let* tr := col_type rhs rhsOn in
    let* ta := col_type rhs rhsAgg in
    let* i := col_idx lhs lhsOn in
    let* j := col_idx rhs rhsOn in
    let* k := col_idx rhs rhsAgg in
    let* cl := rd (f_cols lhs) i in
    let* cr := rd (f_cols rhs) j in
    let* ca := rd (f_cols rhs) k in
    if decide (tl = TI64 /\ tr = TI64 /\ (ta = TF64 \/ ta = TI64)) then
      let* r := group_join_col junk jt ta lhsOn (sum_label rhsAgg) (take (f_rows lhs) (c_cells cl)) (take (f_rows rhs) (c_cells cr)) (take (f_rows rhs) (c_cells ca)) in
      if decide (lhsOn = sum_label rhsAgg) then Throw else Ok r
    else UB.
  (** src/ir/daphneir/DaphneInferTypesOpInterface.cpp 297-306 and DaphneInferFrameLabelsOpInterface.cpp 133-140: types and labels of the
      result at compile time *)
  Definition infer_group_join (lhs rhs : frame V L) (lhsOn rhsAgg : L) : outcome (list (vtc * L)) :=
    let* tl := col_type lhs lhsOn in
    let* ta := col_type rhs rhsAgg in
    Ok [(tl, lhsOn); (ta, sum_label rhsAgg)].
End GroupJoin.
