(** Model of cast expressions: parser, type inference, simplification of chains of casts, and the kernels castObj, castObjSca and castScaObj. *)
From stdpp Require Import base numbers list.
From Verif Require Import CppBase Mem CSRModel.
Local Open Scope nat_scope.

(** * Types *)
(** src/runtime/local/datastructures/ValueTypeCode.h 29-41, without fixed-size strings *)
Inductive vt := SI8 | SI32 | SI64 | UI8 | UI32 | UI64 | F32 | F64 | STR.
Global Instance vt_eq_dec : EqDecision vt.
Proof. solve_decision. Defined.
(** Types at compile time; [None] is the unknown value type, [TU] the unknown type.  Data properties are left out, except whether the labels of a
    frame are known (they make no difference for what is modelled here and are left out, too). *)
Inductive ty := TM (t : option vt) | TF (ts : list (option vt)) | TC (t : option vt) | TS (t : vt) | TU.
Global Instance ty_eq_dec : EqDecision ty.
Proof. solve_decision. Defined.
(** What a cast expression says: as.matrix, as.frame, as.scalar with or without a value type; as.<value type> *)
Inductive target := AsM (t : option vt) | AsF (t : option vt) | AsS (t : option vt) | AsV (t : vt).

(** src/parser/daphnedsl/DaphneDSLVisitor.cpp 1209-1301 (visitCastExpr): the result type, given the type of the argument *)
Definition scalar_or_unknown (t : option vt) : ty := match t with Some t => TS t | None => TU end.
Definition parse_type (g : target) (a : ty) : outcome ty :=
  match g with
  | AsM (Some t) => Ok (TM (Some t))
  | AsM None =>
      match a with
      | TF [] => UB
      | TF (t :: _) => Ok (TM t)
      | TM t => Ok (TM t)
      | TS t => Ok (TM (Some t))
      | TC _ | TU => Ok (TM None)
      end
  | AsF (Some _) => Throw
  | AsF None =>
      match a with
      | TM t => Ok (TF [t])
      | TF [] => UB
      | TF (t :: _) => Ok (TF [t])
      | TS t => Ok (TF [Some t])
      | TC _ | TU => Ok (TF [None])
      end
  | AsS (Some t) => Ok (TS t)
  | AsS None =>
      match a with
      | TM t => Ok (scalar_or_unknown t)
      | TF [] => UB
      | TF (t :: _) => Ok (scalar_or_unknown t)
      | TS t => Ok (TS t)
      | TC _ | TU => Ok TU
      end
  | AsV t =>
      match a with
      | TM _ => Ok (TM (Some t))
      | TF _ => Throw
      | TU => Ok TU
      | TS _ | TC _ => Ok (TS t)
      end
  end.
(** The same function: how often the operations of the argument are created.  valueOrErrorOnVisit(ctx->expr()) is called in lines 1219, 1244, 1262
    and 1278 to find the type, and in line 1300 to get the argument. *)
Definition visits (g : target) : nat :=
  match g with
  | AsM (Some _) | AsF (Some _) | AsS (Some _) => 1
  | AsM None | AsF None | AsS None | AsV _ => 2
  end.
(** Nested casts around an expression, the outermost first; [effects]: what the operations created for the innermost expression do, in order *)
Fixpoint cast_effects {E} (gs : list target) (effects : list E) : list E :=
  match gs with
  | [] => effects
  | g :: gs => concat (replicate (visits g) (cast_effects gs effects))
  end.

Fixpoint mapo {A B} (f : A -> outcome B) (l : list A) : outcome (list B) :=
  match l with [] => Ok [] | a :: l => let* b := f a in let* bs := mapo f l in Ok (b :: bs) end.
(** src/ir/daphneir/DaphneInferTypesOpInterface.cpp 66-186 (CastOp::inferTypes): argument type, result type so far *)
Definition infer_cast (a r : ty) : outcome ty :=
  match r with
  | TM (Some _) => Ok r
  | TM None =>
      match a with
      | TM t => Ok (TM t)
      | TC t => Ok (TM t)
      | TF ts => match ts with [t] => Ok (TM t) | _ => Throw end
      | TS t => Ok (TM (Some t))
      | TU => Throw
      end
  | TF rs =>
      let* ts := mapo (fun i => match rs !! i with
                                | Some (Some t) => Ok (Some t)
                                | _ => match a with
                                       | TM t => Ok t
                                       | TC t => Ok t
                                       | TF ts => match ts !! i with Some t => Ok t | None => UB end
                                       | TS t => Ok (Some t)
                                       | TU => Throw
                                       end
                                end) (seq 0 (length rs)) in
      Ok (TF ts)
  | TC (Some _) => Ok r
  | TC None =>
      match a with
      | TM t => Ok (TC t)
      | TC t => Ok (TC t)
      | TF ts => match ts with [t] => Ok (TC t) | _ => Throw end
      | TS t => Ok (TC (Some t))
      | TU => Throw
      end
  | TS _ | TU => Ok r
  end.

(** * Objects.  Matrices and frames are lists of columns of [n] values; [L]: labels, with the default label of a position *)
Section Objects.
  Context {V L : Type} (conv : vt -> vt -> V -> V) (default : nat -> L).
  Inductive obj := M (t : vt) (n : nat) (cols : list (list V)) | F (n : nat) (cols : list (L * vt * list V)) | Cl (t : vt) (vs : list V).
  Definition f_type (c : L * vt * list V) : vt := snd (fst c).
  Definition f_vals (c : L * vt * list V) : list V := snd c.
  Definition type_of (o : obj) : ty :=
    match o with M t _ _ => TM (Some t) | F _ cols => TF (Some ∘ f_type <$> cols) | Cl t _ => TC (Some t) end.

  (** Frame.h 212-246: a frame of these columns with default labels.  At least one column is needed. *)
  Definition new_frame (n : nat) (cols : list (vt * list V)) : outcome obj :=
    match cols with [] => Throw | _ => Ok (F n (imap (fun i c => (default i, fst c, snd c)) cols)) end.
  (** src/runtime/local/kernels/CastObj.h: 59-139, 145-171, 177-206, 414-443, 449-455, 461-480, 486-498.  Only the combinations of value types
      for which there are kernels (kernels.json, castObj) succeed; here all value types are allowed for matrices and frames.  A cast to the type of
      the argument, or of a frame to a frame of the same column types, is replaced by the argument (isTrivialCast, isRemovePropertyCast in
      DaphneOps.td 1539-1580; RewriteToCallKernelOpPass.cpp 590-591; there is no kernel for other casts between frames).  Value types are [Some] here:
      inference has been done. *)
  Definition cast_obj (r : ty) (o : obj) : outcome obj :=
    match r, o with
    | TM (Some u), M t n cols => Ok (M u n (map (map (conv t u)) cols))
    | TM (Some u), F n cols => Ok (M u n (map (fun c => map (conv (f_type c) u) (f_vals c)) cols))
    | TM (Some u), Cl t vs => if decide (t = u) then Ok (M u (length vs) [vs]) else Throw
    | TF _, M t n cols => new_frame n (map (fun c => (t, c)) cols)
    | TF ts, F n cols => if decide (ts = (Some ∘ f_type <$> cols)) then Ok (F n cols) else Throw
    | TF _, Cl t vs => new_frame (length vs) [(t, vs)]
    | TC (Some u), M t n cols => if decide (t = u) then match cols with [vs] => Ok (Cl u vs) | _ => Throw end else Throw
    | TC (Some u), F n cols => match cols with [c] => if decide (f_type c = u) then Ok (Cl u (f_vals c)) else Throw | _ => Throw end
    | TC (Some u), Cl t vs => if decide (t = u) then Ok (Cl t vs) else Throw
    | _, _ => Throw
    end.
End Objects.
Arguments M {V L}. Arguments F {V L}. Arguments Cl {V L}.

(** DaphneOps.td 1582-1627 (CastOp::mightLoseInformation): argument type, result type *)
Definition might_lose (a r : ty) : bool :=
  match a, r with
  | TM t, TF ts => bool_decide (~ Forall (fun u => u = t) ts)
  | TF ts, TM t => bool_decide (~ Forall (fun u => u = t) ts)
  | TM t, TC u => bool_decide (t <> u)
  | TC u, TM t => bool_decide (t <> u)
  | TC t, TF ts => bool_decide (head ts <> Some t)
  | TF ts, TC t => bool_decide (head ts <> Some t)
  | _, _ => true
  end.
(** src/ir/daphneir/Canonicalize.cpp 768-776: a cast to [c] of a cast to [b] *)
Definition cast_chain {V L} (conv : vt -> vt -> V -> V) (default : nat -> L) (b c : ty) (o : obj) : outcome obj :=
  if might_lose (type_of o) b then let* x := cast_obj conv default b o in cast_obj conv default c x else cast_obj conv default c o.

(** CastObjSca.h (see below) on objects: matrices of all value types can be cast to scalars of all value types; there are kernels for frames only
    if the result is f64 or si64 (kernels.json, castObjSca), and for columns if the result is f64, si64 or ui64, the value type of the column.
    Simplification: the value of the cell of a frame is converted correctly here; see [frame_to_scalar] for what the kernel does. *)
Definition obj_to_scalar {V L} (conv : vt -> vt -> V -> V) (u : vt) (o : @obj V L) : outcome V :=
  match o with
  | M t n cols => match n, cols with 1, [[v]] => Ok (conv t u v) | _, _ => Throw end
  | F n cols => if decide (u = F64 \/ u = SI64) then match n, cols with 1, [(_, t, [v])] => Ok (conv t u v) | _, _ => Throw end else Throw
  | Cl t vs => if decide (t = u /\ (u = F64 \/ u = SI64 \/ u = UI64)) then match vs with [v] => Ok (conv t u v) | _ => Throw end else Throw
  end.
Definition scalar_chain {V L} (conv : vt -> vt -> V -> V) (default : nat -> L) (b : ty) (u : vt) (o : obj) : outcome V :=
  if might_lose (type_of o) b then let* x := cast_obj conv default b o in obj_to_scalar conv u x else obj_to_scalar conv u o.

(** * Scalars and objects with one cell *)
Section Scalars.
  Context {V R : Type} `{Val V} `{Val R} (to_res : V -> R) (junk : nat -> list R) (alloc : nat -> nat -> csrbuf R).
  (** CastObjSca.h 51-59 (dense), 65-73 (sparse: getNumNonZeros(0), getValues(0)), 109-115 (column) *)
  Definition dense_to_scalar (a : dmat V) : outcome R :=
    if decide (m_cols a <> 1 \/ m_rows a <> 1) then Throw else let* v := dm_at a 0 0 in Ok (to_res v).
  Definition csr_to_scalar (b : csrbuf V) (h : csrh) : outcome R :=
    if decide (h_cols h <> 1 \/ h_rows h <> 1) then Throw else
    let* lo := roff b h 0 in
    let* hi := roff b h 1 in
    if decide (hi - lo <> 0) then let* v := rd (bvals b) lo in Ok (to_res v) else Ok vzero.
  Definition column_to_scalar (vs : list V) : outcome R :=
    if decide (length vs <> 1) then Throw else let* v := rd vs 0 in Ok (to_res v).
  (** CastScaObj.h 51-57 (dense), 63-78 (sparse) *)
  Definition scalar_to_dense (v : V) : outcome (dmat R) := let* b := wr (junk 1) 0 (to_res v) in Ok (mkDM b 0 1 1 1).
  Definition scalar_to_csr (v : V) : outcome (csrbuf R * csrh) :=
    let nnz := if viszero v then 0 else 1 in
    let b := alloc 1 nnz in
    let* ro := wr (broff b) 0 0 in
    if viszero v then
      let* ro := wr ro 1 0 in Ok (mkBuf (bvals b) (bcols b) ro, mkH 0 1 1 1 false nnz 0)
    else
      let* ro := wr ro 1 1 in
      let* vs := wr (bvals b) 0 (to_res v) in
      let* cs := wr (bcols b) 0 0 in
      Ok (mkBuf vs cs ro, mkH 0 1 1 1 false nnz 0).
End Scalars.

(** * The cell of a frame as bytes: little endian, two's complement *)
Local Open Scope Z_scope.
Fixpoint le (bs : list Z) : Z := match bs with [] => 0 | b :: bs => b + 256 * le bs end.
Definition signed (w : nat) (z : Z) : Z := if decide (z < 2 ^ (8 * Z.of_nat w - 1)) then z else z - 2 ^ (8 * Z.of_nat w).
Definition code (t : vt) : nat :=
  match t with SI8 => 0 | SI32 => 1 | SI64 => 2 | UI8 => 3 | UI32 => 4 | UI64 => 5 | F32 => 6 | F64 => 7 | STR => 8 end%nat.
(** A number read from memory: an integer, or a floating-point number given by its bytes *)
Inductive num := Int (z : Z) | Flt (bytes : list Z).
Definition read8 (mem : list Z) : outcome (list Z) := if decide (8 <= length mem)%nat then Ok (take 8 mem) else UB.
(** CastObjSca.h 79-102 (frame): [mem] is the memory from the cell to the end of the allocated memory *)
Definition frame_to_scalar (n m : nat) (t : vt) (mem : list Z) : outcome num :=
  if decide (m <> 1%nat \/ n <> 1%nat) then Throw
  else if decide (code t <= 5)%nat then let* bs := read8 mem in Ok (Int (signed 8 (le bs)))
  else if decide (code t <= 7)%nat then let* bs := read8 mem in Ok (Flt bs)
  else Throw.
