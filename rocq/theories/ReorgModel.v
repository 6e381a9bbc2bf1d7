(** Model of the reorganisation kernels: src/runtime/local/kernels/Reverse.h, DiagMatrix.h, DiagVector.h, Tri.h, RowBind.h, ColBind.h,
    Reshape.h. Simplifications: the result pointer is null on entry; [junk k], [alloc rows nnz] are the arbitrary contents of newly
    allocated arrays; shared arrays are modelled as the same contents. The variants for frames and for Matrix (which use only get and
    append) are not modelled here. *)
From stdpp Require Import base numbers list.
From Coq Require Import ZArith Lia.
From Verif Require Import CppBase Mem CSRModel.

(** CSRMatrix.h 339: isView *)
Definition csr_isView (h : csrh) : bool := bool_decide (h_rows h < h_alloc h) || h_before h.
(** std::copy(src + s, src + s + n, dst + d) is [copy_range] of Mem.v. *)

Section dense.
  Context {V : Type} `{Val V} (junk : nat -> list V).
  (** Reverse.h 54-79 *)
  Definition reverse_dense (a : dmat V) : outcome (dmat V) :=
    let n := m_rows a in let m := m_cols a in
    let* b := (if decide (m_skip a = 1) then for_up 0 n (fun i b => let* v := rd (m_buf a) (m_off a + (n - 1 - i)) in wr b i v) (junk (n * m))
               else for_up 0 n (fun r b => copy_range b (r * m) (m_buf a) (m_off a + (n - 1 - r) * m_skip a) m) (junk (n * m))) in
    Ok (mkDM b 0 n m m).
  (** DiagMatrix.h 55-79; the result is initialised with zeros *)
  Definition diag_matrix_dense (a : dmat V) : outcome (dmat V) :=
    if decide (m_cols a <> 1) then Throw else
    let n := m_rows a in
    let* b := for_up 0 n (fun r b => let* v := rd (m_buf a) (m_off a + r * m_skip a) in wr b (r * (n + 1)) v) (replicate (n * n) vzero) in
    Ok (mkDM b 0 n n n).
  (** DiagVector.h 52-77 *)
  Definition diag_vector_dense (a : dmat V) : outcome (dmat V) :=
    let n := m_rows a in
    if decide (n <> m_cols a) then Throw else if decide (n = 0) then Throw else
    let* b := for_up 0 n (fun r b => let* v := rd (m_buf a) (m_off a + (r + r * m_skip a)) in wr b r v) (junk (n * 1)) in
    Ok (mkDM b 0 n 1 1).
  (** Tri.h 69-105: the columns [start, end) of row r *)
  Definition tri_start (upper diag : bool) (r : nat) : nat := if upper then (if diag then 0 else 1) + r else 0.
  Definition tri_end (upper diag : bool) (n r : nat) : nat := if upper then n else (if diag then 1 else 0) + r.
  Definition tri_dense (one : V) (upper diag values : bool) (a : dmat V) : outcome (dmat V) :=
    let n := m_rows a in
    if decide (n <> m_cols a) then Throw else
    let* b := for_up 0 n (fun r b =>
      for_up (tri_start upper diag r) (tri_end upper diag n r) (fun c b =>
        let* v := rd (m_buf a) (m_off a + r * m_skip a + c) in
        if viszero v then Ok b else wr b (r * n + c) (if values then v else one)) b) (replicate (n * n) vzero) in
    Ok (mkDM b 0 n n n).
  (** RowBind.h 58-87: the rowSkip of the arguments is not taken into account *)
  Definition row_bind_dense (u l : dmat V) : outcome (dmat V) :=
    if decide (m_cols u <> m_cols l) then Throw else
    let m := m_cols u in
    let* b := copy_range (junk ((m_rows u + m_rows l) * m)) 0 (m_buf u) (m_off u) (m_cols u * m_rows u) in
    let* b := copy_range b (m_rows u * m_cols u) (m_buf l) (m_off l) (m_cols l * m_rows l) in
    Ok (mkDM b 0 (m_rows u + m_rows l) m m).
  (** ColBind.h 58-91 *)
  Definition col_bind_dense (u l : dmat V) : outcome (dmat V) :=
    if decide (m_rows u <> m_rows l) then Throw else
    let n := m_rows u in let m := m_cols u + m_cols l in
    let* b := for_up 0 n (fun r b =>
      let* b := copy_range b (r * m) (m_buf u) (m_off u + r * m_skip u) (m_cols u) in
      copy_range b (r * m + m_cols u) (m_buf l) (m_off l + r * m_skip l) (m_cols l)) (junk (n * m)) in
    Ok (mkDM b 0 n m m).
  (** Multiplication of size_t *)
  Definition mul64 (x y : nat) : Z := ((Z.of_nat x * Z.of_nat y) mod 2 ^ 64)%Z.
  (** Reshape.h 55-95 *)
  Definition reshape_dense (a : dmat V) (n' m' : nat) : outcome (dmat V) :=
    let n := m_rows a in let m := m_cols a in
    if decide (n' = n /\ m' = m) then Ok a else
    if decide (mul64 n' m' <> mul64 n m) then Throw else
    if decide (m_skip a = m \/ n = 1) then Ok (mkDM (m_buf a) (m_off a) n' m' m') else
    let* b := for_up 0 n (fun r b => copy_range b (r * m) (m_buf a) (m_off a + r * m_skip a) m) (junk (n' * m')) in
    Ok (mkDM b 0 n' m' m').
End dense.

Section csr.
  Context {V : Type} `{Val V} (junk : nat -> list V) (alloc : nat -> nat -> csrbuf V).
  (** The state of the loops that build a result: row offsets, columns, values, pos *)
  Definition cst : Type := list nat * list nat * list V * nat.
  Definition put (c : nat) (v : V) (s : cst) : outcome cst :=
    let '(ro, cs, vs, pos) := s in let* vs := wr vs pos v in let* cs := wr cs pos c in Ok (ro, cs, vs, pos + 1).
  Definition close (r : nat) (s : cst) : outcome cst := let '(ro, cs, vs, pos) := s in let* ro := wr ro (r + 1) pos in Ok (ro, cs, vs, pos).
  Definition start (res : csrbuf V) : outcome cst := let* ro := wr (broff res) 0 0 in Ok (ro, bcols res, bvals res, 0).
  Definition done_ (n m nnz : nat) (s : cst) : csrbuf V * csrh := let '(ro, cs, vs, _) := s in (mkBuf vs cs ro, mkH 0 n m n false nnz 0).

  (** DiagMatrix.h 85-114: CSRMatrix <- DenseMatrix *)
  Definition diag_matrix_sd (a : dmat V) : outcome (csrbuf V * csrh) :=
    if decide (m_cols a <> 1) then Throw else
    let n := m_rows a in
    let* s := start (alloc n n) in
    let* s := for_up 0 n (fun r s =>
      let* v := rd (m_buf a) (m_off a + r * m_skip a) in
      let* s := (if viszero v then Ok s else put r v s) in
      close r s) s in
    Ok (done_ n n n s).
  (** DiagMatrix.h 120-146: CSRMatrix <- CSRMatrix *)
  Definition diag_matrix_ss (b : csrbuf V) (h : csrh) : outcome (csrbuf V * csrh) :=
    if decide (h_cols h <> 1) then Throw else
    let n := h_rows h in
    let* s := start (alloc n n) in
    let* s := for_up 0 n (fun r s =>
      let* k := csr_row_nnz b h r in
      let* s := (if decide (k = 0) then Ok s else let* p := roff b h r in let* v := rd (bvals b) p in put r v s) in
      close r s) s in
    Ok (done_ n n n s).
  (** DiagVector.h 83-122; the inner loop with its break is [scan_diag] *)
  Fixpoint scan_diag (b : csrbuf V) (i k j : nat) : outcome V :=
    match k with
    | 0 => Ok vzero
    | S k => let* c := rd (bcols b) j in if decide (c = i) then rd (bvals b) j else scan_diag b i k (j + 1)
    end.
  Definition diag_vector_csr (b : csrbuf V) (h : csrh) : outcome (dmat V) :=
    let n := h_rows h in
    if decide (n <> h_cols h) then Throw else if decide (n = 0) then Throw else
    let* res := for_up 0 n (fun i res =>
      let* s := roff b h i in let* e := roff b h (i + 1) in
      let* v := scan_diag b i (e - s) s in
      wr res i v) (junk (n * 1)) in
    Ok (mkDM res 0 n 1 1).
  (** Tri.h 111-154 *)
  Definition tri_csr (one : V) (upper diag values : bool) (b : csrbuf V) (h : csrh) : outcome (csrbuf V * csrh) :=
    let n := h_rows h in
    if decide (n <> h_cols h) then Throw else
    let* nnz := csr_nnz b h in
    let cap := min nnz (n * (n + 1) / 2) in
    let* s := start (alloc n cap) in
    let* s := for_up 0 n (fun r s =>
      let* k := csr_row_nnz b h r in
      let* a := roff b h r in
      let* s := for_up 0 k (fun i s =>
        let* c := rd (bcols b) (a + i) in
        if decide (tri_start upper diag r <= c /\ c < tri_end upper diag n r) then
          let* v := rd (bvals b) (a + i) in
          if viszero v then Ok s else put c (if values then v else one) s
        else Ok s) s in
      close r s) s in
    Ok (done_ n n cap s).
  (** RowBind.h 128-176 *)
  Definition row_bind_csr (b1 : csrbuf V) (h1 : csrh) (b2 : csrbuf V) (h2 : csrh) : outcome (csrbuf V * csrh) :=
    if decide (h_cols h1 <> h_cols h2) then Throw else
    let* nnz1 := csr_nnz b1 h1 in
    let* nnz2 := csr_nnz b2 h2 in
    let n1 := h_rows h1 in let n2 := h_rows h2 in
    let res := alloc (n1 + n2) (nnz1 + nnz2) in
    let* start1 := roff b1 h1 0 in
    let* ro := for_up 0 n1 (fun i ro => let* x := roff b1 h1 i in wr ro i (if csr_isView h1 then x - start1 else x)) (broff res) in
    let* vs := copy_range (bvals res) 0 (bvals b1) start1 nnz1 in
    let* cs := copy_range (bcols res) 0 (bcols b1) start1 nnz1 in
    let* start2 := roff b2 h2 0 in
    let* ro := for_up 0 n2 (fun i ro => let* x := roff b2 h2 i in wr ro (i + n1) (x - start2 + nnz1)) ro in
    let* vs := copy_range vs nnz1 (bvals b2) start2 nnz2 in
    let* cs := copy_range cs nnz1 (bcols b2) start2 nnz2 in
    let* ro := wr ro (n1 + n2) (nnz1 + nnz2) in
    Ok (mkBuf vs cs ro, mkH 0 (n1 + n2) (h_cols h1) (n1 + n2) false (nnz1 + nnz2) 0).
  (** ColBind.h 107-150 *)
  Definition col_bind_csr (b1 : csrbuf V) (h1 : csrh) (b2 : csrbuf V) (h2 : csrh) : outcome (csrbuf V * csrh) :=
    if decide (h_rows h1 <> h_rows h2) then Throw else
    let* nnz1 := csr_nnz b1 h1 in
    let* nnz2 := csr_nnz b2 h2 in
    let n := h_rows h1 in let m := h_cols h1 + h_cols h2 in
    let res := alloc n (nnz1 + nnz2) in
    let* start1 := roff b1 h1 0 in
    let* start2 := roff b2 h2 0 in
    let* s := for_up 0 n (fun r (s : cst) =>
      let '(ro, cs, vs, prevEnd) := s in
      let* p1 := roff b1 h1 r in let* e1 := roff b1 h1 (r + 1) in
      let* p2 := roff b2 h2 r in let* e2 := roff b2 h2 (r + 1) in
      let off2 := prevEnd + (e1 - p1) in
      let* vs := copy_range vs prevEnd (bvals b1) p1 (e1 - p1) in
      let* vs := copy_range vs off2 (bvals b2) p2 (e2 - p2) in
      let* cs := copy_range cs prevEnd (bcols b1) p1 (e1 - p1) in
      let* cs := for_up 0 (e2 - p2) (fun c cs => let* x := rd (bcols b2) (p2 + c) in wr cs (off2 + c) (x + h_cols h1)) cs in
      let* ro := wr ro r (p1 - start1 + (p2 - start2)) in
      Ok (ro, cs, vs, off2 + (e2 - p2))) (broff res, bcols res, bvals res, 0) in
    let '(ro, cs, vs, _) := s in
    let* ro := wr ro n (nnz1 + nnz2) in
    Ok (mkBuf vs cs ro, mkH 0 n m n false (nnz1 + nnz2) 0).
  (** Reshape.h 101-164; the values are shared with the argument or copied; of a shared array the first nnz elements are modelled.
      The pointer rowOffsetsRes is at rResPrev + 1 throughout. *)
  Definition reshape_csr (b : csrbuf V) (h : csrh) (n' m' : nat) : outcome (csrbuf V * csrh) :=
    let n := h_rows h in let m := h_cols h in
    if decide (n' = n /\ m' = m) then Ok (b, h) else
    if decide (mul64 n' m' <> mul64 n m) then Throw else
    let* nnz := csr_nnz b h in
    let res := alloc n' nnz in
    let* vs := (if csr_isView h then let* s := roff b h 0 in copy_range (bvals res) 0 (bvals b) s nnz else Ok (take nnz (bvals b))) in
    let* ro := wr (broff res) 0 0 in
    let* s := for_up 0 n (fun r (s : list nat * list nat * nat * nat) =>
      let* p := roff b h r in let* e := roff b h (r + 1) in
      for_up 0 (e - p) (fun i (s : list nat * list nat * nat * nat) =>
        let '(ro, cs, rprev, k) := s in
        let* c := rd (bcols b) (p + i) in
        if decide (m' = 0) then UB else
        let pos := r * m + c in
        let* ro := for_up rprev (pos / m') (fun q ro => wr ro (q + 1) k) ro in
        let* cs := wr cs k (pos mod m') in
        Ok (ro, cs, pos / m', k + 1)) s) (ro, bcols res, 0, 0) in
    let '(ro, cs, rprev, k) := s in
    let* ro := for_up rprev n' (fun q ro => wr ro (q + 1) k) ro in
    Ok (mkBuf vs cs ro, mkH 0 n' m' n' false nnz 0).
End csr.
