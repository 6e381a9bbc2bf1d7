(** Model of reading Matrix Market files: src/runtime/local/io/MMFile.h and ReadMM.h.
    Simplification: the text of the file is taken as already split into its lines and fields (sscanf, std::stoi and convertCstr of well-formed text);
    a line with two integers and a value is a [line]; in the array format only the value is there, and the two integers of the [line] are not looked at. *)
From stdpp Require Import base numbers list.
From Coq Require Import ZArith.
From Verif Require Import CppBase CSRModel.

(** MMFile.h 40-43, 50-53: the second and the fourth character of the type code. An array file is one whose type code does not say coordinate. *)
Inductive mmfmt := Coordinate | Array.
Inductive mmsym := General | Symmetric | Skew | Hermitian.
#[global] Instance mmfmt_dec : EqDecision mmfmt. Proof. solve_decision. Defined.
#[global] Instance mmsym_dec : EqDecision mmsym. Proof. solve_decision. Defined.

(** size_t *)
Definition wrap (z : Z) : Z := (z mod 2 ^ 64)%Z.
(** a[i] = v for an index of type size_t *)
Definition wrz {A} (a : list A) (i : Z) (v : A) : outcome (list A) := if decide (0 <= i < Z.of_nat (length a))%Z then wr a (Z.to_nat i) v else UB.

Section Mm.
  Context {V : Type} `{Val V} (one : V) (neg : V -> V).
  Record line := mkLine { l_row : Z; l_col : Z; l_val : V }.
  (** MMFile.h 236-257: the data of MMFile: type code, sizes, and the lines that follow. [f_nnz] is the third number of the size line of a coordinate file. *)
  Record mmfile := mkFile { f_fmt : mmfmt; f_pattern : bool; f_sym : mmsym; f_rows : nat; f_cols : nat; f_nnz : nat; f_lines : list line }.
  (** MMFile.h 273-276: Entry *)
  Definition entry : Type := Z * Z * V.

  (** MMFile.h 243-256, 265: entryCount *)
  Definition entry_count (f : mmfile) : Z :=
    match f_fmt f with
    | Coordinate => wrap (Z.of_nat (f_nnz f) * (if decide (f_sym f = Skew) then 2 else 1))
    | Array => wrap (wrap (Z.of_nat (f_rows f) * Z.of_nat (f_cols f)) - (if decide (f_sym f = Skew) then Z.of_nat (f_rows f) else 0))
    end.

  (** MMFile.h 315-318: std::stoi(...) - 1, an int, converted to size_t *)
  Definition stoi_m1 (z : Z) : outcome Z :=
    if decide (- 2 ^ 31 <= z < 2 ^ 31)%Z then if decide (z = - 2 ^ 31)%Z then UB else Ok (wrap (z - 1)) else Throw.
  (** MMFile.h 296-299, 347-352: progress, on the column; the result is the new r and c *)
  Definition progress (s : mmsym) (c : Z) : Z * Z :=
    match s with
    | Symmetric => (wrap (c + 1), wrap (c + 1))
    | Skew => (wrap (c + 2), wrap (c + 1))
    | _ => (0%Z, wrap (c + 1))
    end.
  (** MMFile.h 295, 349-350: r and c at the start *)
  Definition start (s : mmsym) : Z * Z := if decide (s = Skew) then (1%Z, 0%Z) else (0%Z, 0%Z).
  (** MMFile.h 361, 379-380: the entry equals the one that terminate sets *)
  Definition at_end (e : entry) : Prop := e.1 = (2 ^ 64 - 1, 2 ^ 64 - 1)%Z.
  #[global] Instance at_end_dec e : Decision (at_end e). Proof. unfold at_end. apply _. Defined.

  (** MMFile.h 315-324: the position of an entry: from the line or from the counters *)
  Definition position (f : mmfile) (l : line) (r c : Z) : outcome (Z * Z) :=
    match f_fmt f with
    | Coordinate => let* r := stoi_m1 (l_row l) in let* c := stoi_m1 (l_col l) in Ok (r, c)
    | Array => Ok (r, c)
    end.
  (** MMFile.h 326-338: the second entry of a line *)
  Definition mirrored (f : mmfile) (r c : Z) (cur : V) : option entry :=
    match f_sym f with
    | Symmetric => if decide (r = c) then None else Some (c, r, cur)
    | Skew => Some (c, r, neg cur)
    | _ => None
    end.
  (** MMFile.h 302-341, 366-373, 383-390 and the loop "for (auto &entry : mmfile) body": the lines that are left, the counters, and the state of the loop body *)
  Fixpoint mm_loop {S : Type} (f : mmfile) (body : entry -> S -> outcome S) (ls : list line) (r c : Z) (s : S) : outcome S :=
    match ls with
    | [] => Ok s
    | l :: ls =>
        let* p := position f l r c in
        let cur := if f_pattern f then one else l_val l in
        let r' := wrap (p.1 + 1) in
        let rc := if decide (Z.of_nat (f_rows f) <= r')%Z then progress (f_sym f) p.2 else (r', p.2) in
        if decide (at_end (p, cur)) then Ok s else
        let* s := body (p, cur) s in
        match mirrored f p.1 p.2 cur with
        | None => mm_loop f body ls rc.1 rc.2 s
        | Some e => if decide (at_end e) then Ok s else let* s := body e s in mm_loop f body ls rc.1 rc.2 s
        end
    end.
  Definition for_each {S : Type} (f : mmfile) (body : entry -> S -> outcome S) (s : S) : outcome S :=
    let st := start (f_sym f) in mm_loop f body (f_lines f) st.1 st.2 s.

  (** ReadMM.h 52, 96 and DenseMatrix, Frame: the cells of a new matrix are zero if that is asked for, and arbitrary ([junk]) otherwise *)
  Definition init_cells (f : mmfile) (junk : list V) : list V :=
    if decide (entry_count f <> wrap (Z.of_nat (f_cols f) * Z.of_nat (f_rows f))) then replicate (f_rows f * f_cols f) vzero else junk.
  (** ReadMM.h 48-59: ReadMM<DenseMatrix>, for a result that does not exist yet *)
  Definition read_dense (f : mmfile) (junk : list V) : outcome (list V) :=
    for_each f (fun e a => wrz a (wrap (e.1.1 * Z.of_nat (f_cols f) + e.1.2)) e.2) (init_cells f junk).

  (** ReadMM.h 66-70: the priority queue with std::greater: smallest entry first. The order of entries at the same position is not specified; here the later one comes first. *)
  Definition entry_le (e1 e2 : entry) : Prop := (e1.1.1 < e2.1.1 \/ e1.1.1 = e2.1.1 /\ e1.1.2 <= e2.1.2)%Z.
  #[global] Instance entry_le_dec e1 e2 : Decision (entry_le e1 e2). Proof. unfold entry_le. apply _. Defined.
  Fixpoint enqueue (e : entry) (q : list entry) : list entry := match q with [] => [e] | x :: q' => if decide (entry_le e x) then e :: q else x :: enqueue e q' end.
  (** ReadMM.h 80-97: the loops that empty the queue. State: row offsets, columns, values, currValIdx, rowIdx.
      The inner loop runs from rowIdx to entry.row and writes at rowIdx + 1; an entry.row above the number of rows makes it leave the array. *)
  Fixpoint dequeue (n : nat) (q : list entry) (ro cs : list nat) (vs : list V) (curr rowIdx : nat) : outcome (csrbuf V) :=
    match q with
    | e :: q' =>
        if decide (Z.of_nat n < e.1.1)%Z then UB else
        let* ro := for_up rowIdx (Z.to_nat e.1.1) (fun k ro => wr ro (k + 1) curr) ro in
        let* vs := wr vs curr e.2 in
        let* cs := wr cs curr (Z.to_nat e.1.2) in
        dequeue n q' ro cs vs (curr + 1) (max rowIdx (Z.to_nat e.1.1))
    | [] =>
        let* ro := for_up rowIdx n (fun k ro => wr ro (k + 1) curr) ro in
        Ok (mkBuf vs cs ro)
    end.
  (** ReadMM.h 62-98: ReadMM<CSRMatrix>; [fresh k] are the arrays of a new matrix for k entries *)
  Definition read_csr (f : mmfile) (fresh : nat -> csrbuf V) : outcome (csrbuf V * nat) :=
    let* q := for_each f (fun e q => Ok (enqueue e q)) [] in
    let b := fresh (length q) in
    let* ro := wr (broff b) 0 0 in
    let* b' := dequeue (f_rows f) q ro (bcols b) (bvals b) 0 0 in
    Ok (b', length q).
End Mm.
Arguments mkLine {V} _ _ _.
Arguments mkFile {V} _ _ _ _ _ _ _.

Section MmFrame.
  (** ReadMM.h 101-124: ReadMM<Frame>: the file is read with values of type double ([V]); a cell is stored after a conversion ([conv]: to int64_t for integer files, none for others).
      [init_cells] of each column as for a matrix; the cells are kept by column. *)
  Context {V W : Type} `{Val V} (one : V) (neg : V -> V) (conv : V -> W) (wzero : W).
  Definition read_frame (f : mmfile (V := V)) (junk : list (list W)) : outcome (list (list W)) :=
    for_each one neg f (fun e cols => let* col := (if decide (e.1.2 < Z.of_nat (length cols))%Z then rd cols (Z.to_nat e.1.2) else UB) in let* col := wrz col e.1.1 (conv e.2) in wr cols (Z.to_nat e.1.2) col)
      (if decide (entry_count f <> wrap (Z.of_nat (f_cols f) * Z.of_nat (f_rows f))) then replicate (f_cols f) (replicate (f_rows f) wzero) else junk).
End MmFrame.
