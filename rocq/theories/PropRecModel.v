(** Model of recording the sparsity of intermediate results in one run of a script and inserting it in the next one. *)
From stdpp Require Import base numbers list.
From Verif Require Import CppBase.

(** * The kernel that records a matrix *)
(** src/runtime/local/kernels/RecordProperties.h 51-65: the number of non-zeros of a dense matrix, and the number of cells it is divided by *)
Definition rec_dense (rows cols : nat) (get : nat -> nat -> Z) : nat * nat :=
  (fold_left (fun n r => fold_left (fun n c => if decide (get r c <> 0%Z) then n + 1 else n) (seq 0 cols) n) (seq 0 rows) 0, rows * cols).
(** src/runtime/local/kernels/RecordProperties.h 71-89, CSRMatrix.h 181, 199: the same for a sparse matrix; getValues() is the beginning of the array, also
    for a view on some of the rows, whose row offsets do not begin with zero. *)
Definition rec_csr (rows cols : nat) (values : list Z) (offsets : list nat) : outcome (nat * nat) :=
  let* last := rd offsets rows in
  let* first := rd offsets 0 in
  let* nnz := forn (last - first) 0 (fun i n => let* v := rd values i in Ok (if decide (v <> 0%Z) then n + 1 else n)) 0 in
  Ok (nnz, rows * cols).

Section Passes.
  Context {S : Type}.
  (** The type of a value: a matrix whose sparsity may be known, or something else *)
  Inductive vty := VTMat (sp : option S) | VTOther.
  Definition is_mat (t : vty) : bool := match t with VTMat _ => true | VTOther => false end.
  (** Operations of the main function: loops and conditionals (with the values their bodies use from outside), casts that remove properties, which
      both passes skip, and others.  Simplifications: other operations have no bodies, and bodies are not looked into. *)
  Inductive kind := Plain | Ctl | Skip.
  Record op := mkOp { o_kind : kind; o_tag : nat; o_args : list nat; o_caps : list nat; o_res : list (nat * vty) }.

  (** ** Recording *)
  Inductive rop := ROp (o : op) (ids : list nat) | RRec (v id : nat).
  (** src/compiler/explanation/RecordPropertiesPass.cpp 52-65: one number for each matrix among the results *)
  Fixpoint record_results (id : nat) (res : list (nat * vty)) : list (nat * nat) :=
    match res with [] => [] | (v, t) :: res => if is_mat t then (v, id) :: record_results (id + 1) res else record_results id res end.
  (** src/compiler/explanation/RecordPropertiesPass.cpp 67-94: each recording is inserted directly after the operation *)
  Fixpoint record (id : nat) (p : list op) : list rop :=
    match p with
    | [] => []
    | o :: p =>
        match o_kind o with
        | Skip => ROp o [] :: record id p
        | _ => let rs := record_results id (o_res o) in
               ROp o (map snd rs) :: map (fun r => RRec (fst r) (snd r)) (reverse rs) ++ record (id + length rs) p
        end
    end.
  (** src/util/PropertyLogger.cpp 26-29: what is logged at run time, given the sparsity of each value.  None: a matrix without cells, 0 / 0 is not
      a number and is written as null. *)
  Fixpoint log (sp : nat -> option S) (p : list rop) : list (nat * option S) :=
    match p with [] => [] | ROp _ _ :: p => log sp p | RRec v id :: p => (id, sp v) :: log sp p end.

  (** ** Inserting *)
  (** src/compiler/explanation/InsertPropertiesPass.cpp 85-91: the entries of the file, in whatever order, sorted by number *)
  Fixpoint ins (x : nat * option S) (l : list (nat * option S)) : list (nat * option S) :=
    match l with [] => [x] | y :: l => if decide (fst x <= fst y) then x :: y :: l else y :: ins x l end.
  Fixpoint isort (l : list (nat * option S)) : list (nat * option S) := match l with [] => [] | x :: l => ins x (isort l) end.
  (** What is done to the values *)
  Record todo := mkTodo { t_kind : kind; t_val : nat; t_ty : vty; t_sp : S }.
  (** src/compiler/explanation/InsertPropertiesPass.cpp 93-145: insertRecordedProperties takes the next entry for each matrix among the results; it
      does not go on to the next entry if the entry is null (lines 103-106). *)
  Fixpoint ins_results (k : kind) (ps : list (option S)) (res : list (nat * vty)) : list todo * list (option S) :=
    match res with
    | [] => ([], ps)
    | (v, t) :: res =>
        match ps with
        | Some s :: ps' => if is_mat t then let (a, r) := ins_results k ps' res in (mkTodo k v t s :: a, r) else ins_results k ps res
        | _ => ins_results k ps res
        end
    end.
  (** src/compiler/explanation/InsertPropertiesPass.cpp 147-174: the casts inserted here are not visited or skipped, as they remove no or all properties *)
  Fixpoint plan (ps : list (option S)) (p : list op) : list todo :=
    match p with
    | [] => []
    | o :: p => match o_kind o with Skip => plan ps p | k => let (a, ps) := ins_results k ps (o_res o) in a ++ plan ps p end
    end.
  Inductive item := IOp (o : op) | ICast (c v : nat) (t : vty).
  (** src/compiler/explanation/InsertPropertiesPass.cpp 116-118: a cast to the type with the recorded sparsity directly after the loop or conditional *)
  Fixpoint cast_after (v c : nat) (s : S) (l : list item) : list item :=
    match l with
    | [] => []
    | IOp o :: l => if decide (v ∈ map fst (o_res o)) then IOp o :: ICast c v (VTMat (Some s)) :: l else IOp o :: cast_after v c s l
    | i :: l => i :: cast_after v c s l
    end.
  (** src/compiler/explanation/InsertPropertiesPass.cpp 119-137: a use of the value by a loop or conditional reads a cast to the unchanged type of the value
      instead.  setOperand() takes the use off the list that the loop goes through, so that this loop ends.  The order of this list
      is not modelled: it is the k-th use in the program that is replaced, for any k. *)
  Fixpoint redirect_arg (v c k : nat) (args : list nat) : list nat + nat :=
    match args with
    | [] => inr k
    | a :: args =>
        if decide (a = v) then
          match k with
          | 0 => inl (c :: args)
          | Datatypes.S k => match redirect_arg v c k args with inl l => inl (a :: l) | inr k => inr k end
          end
        else match redirect_arg v c k args with inl l => inl (a :: l) | inr k => inr k end
    end.
  Fixpoint redirect (v c : nat) (t : vty) (k : nat) (l : list item) : list item :=
    match l with
    | [] => []
    | IOp o :: l =>
        match o_kind o with
        | Ctl => match redirect_arg v c k (o_args o) with
                 | inl args => ICast c v t :: IOp (mkOp (o_kind o) (o_tag o) args (o_caps o) (o_res o)) :: l
                 | inr k => IOp o :: redirect v c t k l
                 end
        | _ => IOp o :: redirect v c t k l
        end
    | i :: l => i :: redirect v c t k l
    end.
  Definition apply1 (ks : nat -> nat) (st : list item * nat) (d : todo) : list item * nat :=
    let (l, c) := st in
    (match t_kind d with Ctl => cast_after (t_val d) c (t_sp d) l | _ => redirect (t_val d) c (t_ty d) (ks (t_val d)) l end, c + 1).
  (** The whole pass on the operations of a program whose values are below [c] *)
  Definition insert_props (ks : nat -> nat) (c : nat) (file : list (nat * option S)) (p : list op) : list item :=
    fst (fold_left (apply1 ks) (plan (map snd (isort file)) p) (map IOp p, c)).
End Passes.
Arguments vty : clear implicits.
Arguments op : clear implicits.
Arguments rop : clear implicits.
Arguments todo : clear implicits.
Arguments item : clear implicits.
