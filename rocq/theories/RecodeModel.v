(** Model of src/runtime/local/kernels/Recode.h. [eqb] is the operator == of the value type (used by std::unordered_map), [lt] the
    operator < (used by std::set). The result pointers are null on entry; codes do not overflow. *)
From stdpp Require Import base numbers list.
From Verif Require Import CppBase Mem.

Section Recode.
  Context {V : Type} (eqb lt : V -> V -> bool).
  (** std::unordered_map<VTVal, VTCode>: the entries; the order of iteration is up to the library (see [it] below). *)
  Definition umap := list (V * nat).
  Fixpoint um_find (v : V) (m : umap) : option nat := match m with [] => None | (w, c) :: m' => if eqb w v then Some c else um_find v m' end.
  (** emplace: no effect if the key exists *)
  Definition um_emplace (v : V) (c : nat) (m : umap) : umap := match um_find v m with Some _ => m | None => m ++ [(v, c)] end.
  (** operator[] for reading: a missing key is inserted with code 0 *)
  Definition um_at (v : V) (m : umap) : nat * umap := match um_find v m with Some c => (c, m) | None => (0, m ++ [(v, 0)]) end.
  (** std::set<VTVal>: sorted; a value equivalent to an element is not inserted *)
  Fixpoint set_insert (v : V) (s : list V) : list V :=
    match s with [] => [v] | w :: s' => if lt v w then v :: w :: s' else if lt w v then w :: set_insert v s' else s end.

  (** Recode.h 59-104, orderPreserving = true. [jd], [jr]: contents of new arrays. The results are the codes and the dictionary. *)
  Definition recode_ordered (jd : nat -> list V) (jr : nat -> list nat) (a : dmat V) : outcome (list nat * list V) :=
    if decide (m_cols a <> 1) then Throw else
    let n := m_rows a in
    let* distinct := for_up 0 n (fun r s => let* v := rd (m_buf a) (m_off a + r * m_skip a) in Ok (set_insert v s)) [] in
    let* md := for_up 0 (length distinct) (fun i (s : umap * list V) =>
      let* v := rd distinct i in
      let* d := wr (snd s) i v in Ok (um_emplace v i (fst s), d)) ([], jd (length distinct)) in
    let* mr := for_up 0 n (fun r (s : umap * list nat) =>
      let* v := rd (m_buf a) (m_off a + r * m_skip a) in
      let '(c, m) := um_at v (fst s) in
      let* res := wr (snd s) r c in Ok (m, res)) (fst md, jr n) in
    Ok (snd mr, snd md).

  (** Recode.h 105-145, orderPreserving = false. [order]: the order in which the map is iterated. *)
  Definition recode_plain (order : umap -> umap) (jd : nat -> list V) (jr : nat -> list nat) (a : dmat V) : outcome (list nat * list V) :=
    if decide (m_cols a <> 1) then Throw else
    let n := m_rows a in
    let* s := for_up 0 n (fun r (s : umap * nat * list nat) =>
      let '(m, next, res) := s in
      let* v := rd (m_buf a) (m_off a + r * m_skip a) in
      match um_find v m with
      | Some c => let* res := wr res r c in Ok (m, next, res)
      | None => let* res := wr res r next in Ok (m ++ [(v, next)], next + 1, res)
      end) ([], 0, jr n) in
    let '(m, _, res) := s in
    let* d := for_up 0 (length m) (fun i d => let* e := rd (order m) i in wr d (snd e) (fst e)) (jd (length m)) in
    Ok (res, d).
End Recode.
