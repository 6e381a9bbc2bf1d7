(** Model of the casts between data types: src/runtime/local/kernels/CastObj.h.
    Simplifications: the result pointer is null on entry; [junk], [alloc] are the arbitrary contents of new arrays; a shared values
    array is modelled as the same contents (later writes through one of the objects are not modelled here). *)
From stdpp Require Import base numbers list.
From Coq Require Import Lia.
From Verif Require Import CppBase Mem CSRModel.

(** std::fill(b + lo, b + hi, v). *)
Definition fill_range {V} (lo hi : nat) (v : V) (b : list V) : outcome (list V) := for_up lo hi (fun i b => wr b i v) b.

(** CastObj.h 177-205: DenseMatrix <- DenseMatrix; [f] is castSca. *)
Definition cast_dd {W V} (f : W -> V) (junk : list V) (a : dmat W) : outcome (dmat V) :=
  let n := m_rows a in let m := m_cols a in
  let* b := (if decide (m_skip a = m) then
               for_up 0 (m * n) (fun i b => let* v := rd (m_buf a) (m_off a + i) in wr b i (f v)) junk
             else for2 n m (fun r c b => let* v := dm_at a r c in wr b (r * m + c) (f v)) junk) in
  Ok (mkDM b 0 n m m).

(** CastObj.h 59-138: DenseMatrix <- Frame. A frame is its number of rows and its list of columns; [f c] is castSca for the value
    type of column c and [same] tells whether the type of column 0 is that of the result (then f 0 is not used). *)
Definition cast_df {W V} (f : nat -> W -> V) (same : option (W -> V)) (junk : list V) (n : nat) (cols : list (dmat W)) : outcome (dmat V) :=
  match same, cols with
  | Some g, [a] => Ok (mkDM (g <$> m_buf a) (m_off a) (m_rows a) (m_cols a) (m_skip a))
  | _, _ =>
    let m := length cols in
    let* b := for_up 0 m (fun c b => let* a := rd cols c in
                for_up 0 n (fun r b => let* v := dm_at a r 0 in wr b (r * m + c) (f c v)) b) junk in
    Ok (mkDM b 0 n m m)
  end.
(** CastObj.h 145-171: Frame <- DenseMatrix; [junk c] is the new array for column c. *)
Definition cast_fd {V} (junk : nat -> list V) (a : dmat V) : outcome (nat * list (dmat V)) :=
  let n := m_rows a in
  if decide (m_cols a = 1 /\ m_skip a = 1) then Ok (n, [a])
  else
    let* cols := for_up 0 (m_cols a) (fun c cols =>
       let* b := for_up 0 n (fun r b => let* v := dm_at a r c in wr b (r * 1 + 0) v) (junk c) in
       Ok (cols ++ [mkDM b 0 n 1 1])) [] in
    Ok (n, cols).

(** CastObj.h 414-443 and 449-455: Column <- DenseMatrix and back; a column is its length and its array. *)
Definition cast_cd {V} (junk : list V) (a : dmat V) : outcome (nat * list V) :=
  let n := m_rows a in
  if decide (m_cols a = 1) then
    if decide (m_skip a = 1) then Ok (n, drop (m_off a) (m_buf a))
    else let* b := for_up 0 n (fun r b => let* v := rd (m_buf a) (m_off a + r * m_skip a) in wr b r v) junk in Ok (n, b)
  else Throw.
Definition cast_dc {V} (c : nat * list V) : dmat V := mkDM (snd c) 0 (fst c) 1 1.

Section csr.
Context {V : Type} `{Val V}.

(** CastObj.h 211-254: DenseMatrix <- CSRMatrix. *)
Definition cast_sd (junk : list V) (b : csrbuf V) (h : csrh) : outcome (dmat V) :=
  let n := h_rows h in let m := h_cols h in
  let* nnz := csr_nnz b h in
  let* vs :=
    (if decide (nnz = 0) then fill_range 0 (n * m) vzero junk
     else if decide (nnz = n * m) then
       let* s := roff b h 0 in copy_range junk 0 (bvals b) s nnz
     else
       let* (vs, prev) := for_up 0 n (fun r st =>
         let* k := csr_row_nnz b h r in
         let* s := roff b h r in
         for_up 0 k (fun i st => let '(vs, prev) := st in
           let* c := rd (bcols b) (s + i) in
           let pos := r * m + c in
           let* vs := fill_range prev pos vzero vs in
           let* v := rd (bvals b) (s + i) in
           let* vs := wr vs pos v in
           Ok (vs, pos + 1)) st) (junk, 0) in
       fill_range prev (n * m) vzero vs) in
  Ok (mkDM vs 0 n m m).

(** CastObj.h 270-277: the count of the non-zeros. *)
Definition count_nz (a : dmat V) : outcome nat :=
  for2 (m_rows a) (m_cols a) (fun r c k => let* v := dm_at a r c in Ok (if viszero v then k else k + 1)) 0.
(** CastObj.h 260-355: CSRMatrix <- DenseMatrix. *)
Definition cast_ds (alloc : nat -> nat -> csrbuf V) (a : dmat V) : outcome (csrbuf V * csrh) :=
  let n := m_rows a in let m := m_cols a in
  let* nnz := count_nz a in
  let new := alloc n nnz in
  let hd := mkH 0 n m n false nnz 0 in
  if decide (nnz = 0) then
    let* ro := fill_range 0 (n + 1) 0 (broff new) in
    Ok (mkBuf (bvals new) (bcols new) ro, hd)
  else if decide (nnz = n * m) then
    (* 297-318: the values array is shared or copied; of a shared array the result can use the first nnz elements *)
    let* vs := (if decide (m_skip a = m \/ n = 1) then Ok (take nnz (drop (m_off a) (m_buf a)))
                else copy_block (bvals new) 0 m (m_buf a) (m_off a) (m_skip a) n m) in
    (* 322-329 *)
    let* (cs, ro) := for_up 0 n (fun r st => let '(cs, ro) := st in
        let* cs := for_up 0 m (fun c cs => wr cs (r * m + c) c) cs in
        let* ro := wr ro r (r * m) in Ok (cs, ro)) (bcols new, broff new) in
    let* ro := wr ro n (n * m) in
    Ok (mkBuf vs cs ro, hd)
  else
    (* 331-353 *)
    let* ro := wr (broff new) 0 0 in
    let* (cs, vs, ro, _) := for_up 0 n (fun r st =>
        let* (cs, vs, ro, i) := for_up 0 m (fun c st => let '(cs, vs, ro, i) := st in
            let* v := dm_at a r c in
            if viszero v then Ok st
            else let* vs := wr vs i v in let* cs := wr cs i c in Ok (cs, vs, ro, i + 1)) st in
        let* ro := wr ro (r + 1) i in Ok (cs, vs, ro, i)) (bcols new, bvals new, ro, 0) in
    Ok (mkBuf vs cs ro, hd).
End csr.

(** CastObj.h 361-386: CSRMatrix <- CSRMatrix with another value type; [f] is static_cast. *)
Definition cast_ss {W V} `{Val W} `{Val V} (f : W -> V) (b : csrbuf W) (h : csrh) : outcome (csrbuf V * csrh) :=
  let* nnz := csr_nnz b h in
  let '(rb, rh) := csr_new (h_cols h) (h_rows h) nnz in
  let* (vs, cs) := for_up 0 nnz (fun i st => let '(vs, cs) := st in
      let* v := rd (bvals b) i in let* vs := wr vs i (f v) in
      let* c := rd (bcols b) i in let* cs := wr cs i c in Ok (vs, cs)) (bvals rb, bcols rb) in
  let* ro := for_up 0 (h_rows h + 1) (fun r ro => let* x := roff b h r in wr ro r x) (broff rb) in
  Ok (mkBuf vs cs ro, rh).
