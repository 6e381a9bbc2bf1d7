(** Model of the group kernel on frames (src/runtime/local/kernels/Group.h), which aggregates the columns of a frame per group of rows with
    equal keys. The order of the rows is the one of [OrderModel].

    Simplifications: columns are named by their position (the lookup of labels, the expansion of "*" and the labels of the result are not
    modelled); arithmetic on values is arbitrary. A frame column is a dense matrix with one column. *)
From stdpp Require Import base numbers list.
From Coq Require Import ZArith.
From Verif Require Import CppBase Mem ExtractModel OrderModel.

(** * aggregate(), Group.h 82-127; [l] is the array between the two pointers *)
Section aggregate.
  Context {V W : Type}.
  (** Group.h 86-91 *)
  Definition agg_count (of_nat : nat -> W) (l : list V) : outcome W := Ok (of_nat (length l)).
  (** Group.h 92-98: std::accumulate *)
  Definition agg_sum (zero : W) (add : W -> V -> W) (l : list V) : outcome W := Ok (fold_left add l zero).
  (** Group.h 99-105: dereferencing std::min_element: the first of the smallest elements *)
  Definition agg_min (lt : V -> V -> bool) (l : list V) : outcome V :=
    match l with [] => UB | x :: l => Ok (fold_left (fun m y => if lt y m then y else m) l x) end.
  (** Group.h 106-112: std::max_element *)
  Definition agg_max (lt : V -> V -> bool) (l : list V) : outcome V :=
    match l with [] => UB | x :: l => Ok (fold_left (fun m y => if lt m y then y else m) l x) end.
  (** Group.h 113-119 *)
  Definition agg_avg (zero : W) (add : W -> V -> W) (quot : W -> nat -> W) (l : list V) : outcome W := Ok (quot (fold_left add l zero) (length l)).
  (** Group.h 120-126: the key columns are aggregated with (GroupEnum)0, which is none of the enumerators (DaphneOps.td 1287-1291) *)
  Definition agg_key (l : list V) : outcome V := match l with [] => UB | x :: _ => Ok x end.
End aggregate.

(** * ColumnGroupAgg::apply, Group.h 145-169 *)
Section column.
  Context {V W : Type} (agg : list V -> outcome W) (a : dmat V).
  (** the array between the pointers valuesArg + f and valuesArg + l *)
  Definition between (f l : nat) : outcome (list V) :=
    if decide (f <= l /\ m_off a + l <= length (m_buf a)) then Ok (take (l - f) (drop (m_off a + f) (m_buf a))) else UB.
  (** valuesRes[rowRes++] = aggregate(aggFunc, valuesArg + f, valuesArg + l); the state is rowRes and the array of the result *)
  Definition agg_cell (f l : nat) (st : nat * list W) : outcome (nat * list W) :=
    let* vs := between f l in let* w := agg vs in let* b := wr (snd st) (fst st) w in Ok (fst st + 1, b).
  Definition singles (lo hi : nat) (st : nat * list W) : outcome (nat * list W) := for_up lo hi (fun r st => agg_cell r (r + 1) st) st.
  (** Group.h 161-166 *)
  Fixpoint agg_groups (gs : list group) (st : nat * list W) : outcome (nat * list W) :=
    match gs with
    | [] => Ok st
    | g :: rest =>
        let* st := agg_cell (fst g) (snd g) st in
        let* st := singles (snd g) (match rest with h :: _ => fst h | [] => snd g end) st in
        agg_groups rest st
    end.
  Definition group_agg (groups : list group) (junk : list W) : outcome (list W) :=
    let* st := (match groups with
                | [] => singles 0 (m_rows a) (0, junk)                               (* 153-157 *)
                | g :: _ =>
                    let* st := singles 0 (fst g) (0, junk) in                        (* 159-160 *)
                    let* st := agg_groups groups st in                               (* 161-166 *)
                    singles (match last groups with Some h => snd h | None => 0 end) (m_rows a) st   (* 167-168 *)
                end) in
    Ok (snd st).
End column.

(** * Group<Frame>::apply, Group.h 182-332 *)
Definition set_asc (k : key) (b : bool) : key := mkKey (k_type k) (k_lt k) (k_ne k) (k_mat k) (k_col k) b (k_junk k).
(** Group.h 233-237: the array of directions has one element per column found through a "*" *)
Definition directions (star : nat) (num_keys : nat) : outcome (list bool) := for_up 0 num_keys (fun i b => wr b i true) (replicate star false).
(** Group.h 231-267: the order of the rows, the groups of several rows, the number of rows of the result. The number [num_keys] of
    keys is [star], if that is not 0 (232). *)
Definition group_index (fuel n : nat) (ks : list key) (star : nat) : outcome (option (list nat * list group * nat)) :=
  let* asc := directions star (length ks) in
  let? s := (match ks with
             | [] => Ok (Some (seq 0 n, [(0, n)]))
             | _ => order_idx fuel n (zip_with set_asc ks asc) true
             end) in
  let in_groups := foldl (fun s g => s + (snd g - fst g))%nat 0 (snd s) in
  Ok (Some (fst s, snd s, Z.to_nat ((Z.of_nat n - (Z.of_nat in_groups - Z.of_nat (length (snd s)))) mod 2 ^ 64))).
(** Group.h 255 (the rows of the frame in order; without keys the frame itself, 257-261) and 315-329: one column of the result *)
Definition group_column {V W} (agg : list V -> outcome W) (junk : nat -> list V) (junk' : nat -> list W) (a : dmat V) (i : list nat * list group * nat) : outcome (list W) :=
  let '(p, gs, n) := i in
  let* ord := extract_row (junk (length p)) a (idx_column p) in
  group_agg agg ord gs (junk' n).
