(** Model of the order kernel (src/runtime/local/kernels/Order.h). One key is a column of a dense matrix together with a direction. The
    sort of a frame uses one n x 1 matrix per key column (each with its own value type), the sort of a dense matrix uses the same matrix
    with different columns. *)
From stdpp Require Import base numbers list.
From Verif Require Import CppBase Mem ExtractModel.

(** [k_lt] and [k_ne] are the operators < and != of the value type, [k_junk n] the contents of a new array of n values. *)
Record key := mkKey { k_type : Type; k_lt : k_type -> k_type -> bool; k_ne : k_type -> k_type -> bool; k_mat : dmat k_type; k_col : nat; k_asc : bool; k_junk : nat -> list k_type }.

Definition group := (nat * nat)%type.

(** the comparator, Order.h 68-75 *)
Definition compare (k : key) (i j : nat) : outcome bool :=
  let* x := rd (m_buf (k_mat k)) (m_off (k_mat k) + i * m_skip (k_mat k) + k_col k) in
  let* y := rd (m_buf (k_mat k)) (m_off (k_mat k) + j * m_skip (k_mat k) + k_col k) in
  Ok (if k_asc k then k_lt k x y else k_lt k y x).

(** std::stable_sort: as insertion sort. The library may use another algorithm; for a strict weak order the result is the same. *)
Fixpoint ins (cmp : nat -> nat -> outcome bool) (x : nat) (l : list nat) : outcome (list nat) :=
  match l with
  | [] => Ok [x]
  | y :: l' => let* b := cmp y x in if b : bool then let* r := ins cmp x l' in Ok (y :: r) else Ok (x :: y :: l')
  end.
Fixpoint stable_sort (cmp : nat -> nat -> outcome bool) (l : list nat) : outcome (list nat) :=
  match l with [] => Ok [] | x :: l' => let* r := stable_sort cmp l' in ins cmp x r end.
Fixpoint over {A St} (f : A -> St -> outcome St) (l : list A) (s : St) : outcome St :=
  match l with [] => Ok s | x :: l' => let* s' := f x s in over f l' s' end.

(** columnIDSort, Order.h 63-79: sort indices[first, second) in every group. *)
Definition column_sort (k : key) (groups : list group) (idx : list nat) : outcome (list nat) :=
  over (fun (g : group) idx =>
    if decide (fst g <= snd g <= length idx) then
      let* s := stable_sort (compare k) (take (snd g - fst g) (drop (fst g) idx)) in Ok (take (fst g) idx ++ s ++ drop (snd g) idx)
    else UB) groups idx.

(** nextWithRowskip, Order.h 94-100; positions instead of pointers. The loop ends at the latest when it leaves the array, so the number
    of iterations can be bounded by the length of the array plus 1. *)
Fixpoint next_run (fuel : nat) {T} (ne : T -> T -> bool) (buf : list T) (first next last skip : nat) : outcome nat :=
  match fuel with O => UB | S fuel =>
    if decide (next = last) then Ok last else
    let* x := rd buf next in let* y := rd buf first in
    if ne x y then Ok next else next_run fuel ne buf first (next + skip) last skip
  end.
(** the while loop of columnGroupScan, Order.h 126-132, for at most [fuel] iterations; None: still running *)
Fixpoint scan_runs (fuel : nat) {T} (ne : T -> T -> bool) (t : dmat T) (col first last : nat) (acc : list group) : outcome (option (list group)) :=
  if decide (first = last) then Ok (Some acc) else
  match fuel with O => Ok None | S fuel =>
    let* next := next_run (S (length (m_buf t))) ne (m_buf t) first first last (m_skip t) in
    let acc := if decide (m_skip t < next - first) then acc ++ [((first - m_off t - col) / m_skip t, (next - m_off t - col) / m_skip t)] else acc in
    scan_runs fuel ne t col next last acc
  end.
Notation "'let?' x := m 'in' k" := (obind m (fun o => match o with Some x => k | None => Ok None end)) (at level 200, x name, m at level 100, k at level 200).
(** columnGroupScan, Order.h 116-136. The new groups are collected in [acc]; the code appends them to the vector of the old groups and
    erases the old groups at the end. *)
Fixpoint scan_groups (fuel : nat) {T} (ne : T -> T -> bool) (t : dmat T) (col : nat) (old : list group) (acc : list group) : outcome (option (list group)) :=
  match old with
  | [] => Ok (Some acc)
  | g :: old' => let? acc' := scan_runs fuel ne t col (m_off t + fst g * m_skip t + col) (m_off t + snd g * m_skip t + col) acc in
                 scan_groups fuel ne t col old' acc'
  end.

Definition idx_column (idx : list nat) : dmat Z := mkDM (Z.of_nat <$> idx) 0 (length idx) 1 1.
Definition ostate := (list nat * list group)%type.
(** multiColumnIDSort, Order.h 158-166 *)
Definition multi_sort (fuel : nat) (k : key) (s : ostate) : outcome (option ostate) :=
  let* idx := column_sort k (snd s) (fst s) in
  let* tmp := extract_row (k_junk k (length idx * m_cols (k_mat k))) (k_mat k) (idx_column idx) in
  let? groups := scan_groups fuel (k_ne k) tmp (k_col k) (snd s) [] in
  Ok (Some (idx, groups)).
Fixpoint multi_sorts (fuel : nat) (ks : list key) (s : ostate) : outcome (option ostate) :=
  match ks with [] => Ok (Some s) | k :: ks' => let? s' := multi_sort fuel k s in multi_sorts fuel ks' s' end.
(** OrderFrame::apply, Order.h 192-230, and Order.h 283-303 for matrices: all keys but the last, then the last key with or without the
    groups. [want_groups]: groupsRes is not null; it starts empty. *)
Definition order_idx (fuel n : nat) (ks : list key) (want_groups : bool) : outcome (option ostate) :=
  match last ks with
  | None => Throw
  | Some k =>
    let? s := multi_sorts fuel (take (length ks - 1) ks) (seq 0 n, [(0, n)]) in
    if want_groups then multi_sort fuel k s
    else let* idx := column_sort k (snd s) (fst s) in Ok (Some (idx, []))
  end.

(** Order<DenseMatrix, DenseMatrix>, Order.h 272-320: the ordered rows (returnIdx = false; with returnIdx = true the result is the index
    column itself). [cols]: colIdxs with ascending. *)
Definition dense_keys {V} (lt ne : V -> V -> bool) (junk : nat -> list V) (a : dmat V) (cols : list (nat * bool)) : list key :=
  (fun c : nat * bool => mkKey V lt ne a (fst c) (snd c) junk) <$> cols.
Definition order_dense (fuel : nat) {V} (lt ne : V -> V -> bool) (junk : nat -> list V) (a : dmat V) (cols : list (nat * bool)) (want_groups : bool)
  : outcome (option (dmat V * list group)) :=
  let? s := order_idx fuel (m_rows a) (dense_keys lt ne junk a cols) want_groups in
  let* res := extract_row (junk (length (fst s) * m_cols a)) a (idx_column (fst s)) in Ok (Some (res, snd s)).
