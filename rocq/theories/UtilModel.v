(** Models of three small utility classes: UniqueBoundedSet, StringRefCounter, ScopedSymbolTable. *)
From stdpp Require Import base numbers strings gmap list.
From Coq Require Import Lia.
From Verif Require Import CppBase.

(** * src/util/UniqueBoundedSet.h, over the integers. A std::set is its sorted sequence of elements. *)
(** std::set::insert. *)
Fixpoint set_insert (x : Z) (s : list Z) : list Z :=
  match s with
  | [] => [x]
  | y :: s' => if decide (x < y)%Z then x :: s else if decide (x = y) then s else y :: set_insert x s'
  end.
(** UniqueBoundedSet.h 60-63: top; the last element (dereferencing rbegin() of an empty set is undefined). *)
Definition ubs_top (s : list Z) : outcome Z := match last s with Some x => Ok x | None => UB end.
(** UniqueBoundedSet.h 47-55: pop. *)
Definition ubs_pop (s : list Z) : list Z := take (length s - 1) s.
(** UniqueBoundedSet.h 34-42: push. *)
Definition ubs_push (K : nat) (s : list Z) (v : Z) : outcome (list Z) :=
  if decide (length s < K) then Ok (set_insert v s)
  else let* t := ubs_top s in
       if decide (v < t)%Z then Ok (set_insert v (ubs_pop s)) else Ok s.
Fixpoint ubs_pushes (K : nat) (s : list Z) (vs : list Z) : outcome (list Z) :=
  match vs with [] => Ok s | v :: vs' => let* s' := ubs_push K s v in ubs_pushes K s' vs' end.

(** * src/util/StringRefCount.h/.cpp: the map from addresses to counters; the mutex makes each operation atomic. *)
(** StringRefCount.cpp 19-32: inc. *)
Definition src_inc (m : gmap N nat) (p : N) : gmap N nat :=
  match m !! p with Some k => <[p := k + 1]> m | None => <[p := 2]> m end.
(** StringRefCount.cpp 34-56: dec. *)
Definition src_dec (m : gmap N nat) (p : N) : gmap N nat * bool :=
  match m !! p with
  | Some k => if decide (k - 1 = 0) then (delete p m, false) else (<[p := k - 1]> m, true)
  | None => (m, false)
  end.

(** * src/parser/ScopedSymbolTable.h. A value of type I stands for SymbolInfo; a single-level table is a finite map
    (unordered_map; its iteration order is not modelled, [elements] of a map stand for any order). *)
Notation table := (gmap string).
(** ScopedSymbolTable.h 65: scopes; the last element is the current scope. *)
Notation scopes I := (list (table I)).
Section sst.
Context {I : Type}.
(** 77-82: has(sym, parent), the loop at index i = n - 1 and below. *)
Fixpoint sst_has_loop (ss : scopes I) (sym : string) (n : nat) : outcome bool :=
  match n with
  | 0 => Ok false
  | S i => let* t := rd ss i in if decide (is_Some (t !! sym)) then Ok true else sst_has_loop ss sym i
  end.
Definition sst_has (ss : scopes I) (sym : string) (parent : nat) : outcome bool := sst_has_loop ss sym (length ss - parent).
(** 130-137: get. *)
Fixpoint sst_get_loop (ss : scopes I) (sym : string) (n : nat) : outcome I :=
  match n with
  | 0 => Throw
  | S i => let* t := rd ss i in match t !! sym with Some v => Ok v | None => sst_get_loop ss sym i end
  end.
Definition sst_get (ss : scopes I) (sym : string) : outcome I := sst_get_loop ss sym (length ss).
(** 149-154: get with an extra table. *)
Definition sst_get_tab (ss : scopes I) (sym : string) (tab : table I) : outcome I :=
  match tab !! sym with Some v => Ok v | None => sst_get ss sym end.
(** 198: put; back() of an empty vector is undefined. *)
Definition sst_put (ss : scopes I) (sym : string) (v : I) : outcome (scopes I) :=
  match last ss with Some t => Ok (<[length ss - 1 := <[sym := v]> t]> ss) | None => UB end.
(** 208-214: put a whole table. *)
Definition sst_put_tab (ss : scopes I) (tab : table I) : outcome (scopes I) :=
  if decide (length ss = 0) then Ok [tab]
  else foldl (fun acc kv => let* ss := acc in sst_put ss (fst kv) (snd kv)) (Ok ss) (map_to_list tab).
(** 221: pushScope. *)
Definition sst_push (ss : scopes I) : scopes I := ss ++ [∅].
(** 237-246: popScope: returns the overwritten symbols. *)
Definition sst_pop (ss : scopes I) : outcome (scopes I * table I) :=
  match last ss with
  | None => UB
  | Some cur =>
      let* ov := foldl (fun acc kv => let* ov := acc in
                          let* h := sst_has ss (fst kv) 1 in
                          Ok (if (h : bool) then <[fst kv := snd kv]> ov else ov)) (Ok ∅) (map_to_list cur) in
      Ok (take (length ss - 1) ss, ov)
  end.
(** 254-258: extractScope. *)
Definition sst_extract (ss : scopes I) : outcome (scopes I * table I) :=
  match last ss with None => UB | Some cur => Ok (take (length ss - 1) ss, cur) end.
(** 168-174: getSymbol: the innermost scope that has an entry with this value, any such entry of it. *)
Definition sst_symbol_of (ss : scopes I) (val : I) (sym : string) : Prop :=
  exists i t, ss !! i = Some t /\ t !! sym = Some val /\
    forall j t' s', ss !! j = Some t' -> t' !! s' = Some val -> j <= i.
End sst.
