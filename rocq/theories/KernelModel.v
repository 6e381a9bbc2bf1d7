(** Model of the kernel catalog, kernel extensions with priorities, and the
    rewriting of operations to calls of kernels. *)
From stdpp Require Import base numbers list.
From Coq Require Import ZArith.
From Verif Require Import CppBase CsvModel.

Definition name := list byte.

(** * Types *)
(** src/ir/daphneir/DaphneTypes.td.  Value types are numbered.  [info] stands for
    all further properties of a type (numbers of rows and columns, sparsity,
    symmetry, labels); [[]] is no information. *)
Inductive repr := Dense | Sparse.
Global Instance repr_eq_dec : EqDecision repr.
Proof. solve_decision. Defined.
Inductive ty :=
| TScalar (v : nat)
| TMatrix (v : nat) (r : repr) (info : list Z)
| TFrame (cols : list nat) (info : list Z)
| TColumn (v : nat) (info : list Z)
| TList (t : ty)
| TMemRef (v : nat) (shape : list Z)
| TStructure
| TContext.
Global Instance ty_eq_dec : EqDecision ty.
Proof. solve_decision. Defined.

(** mlir::ShapedType::kDynamic, the value type unknown, index and string. *)
Definition dyn : Z := (-2 ^ 63)%Z.
Definition vt_unknown : nat := 0.
Definition vt_index : nat := 10.
Definition vt_string : nat := 11.

(** src/compiler/catalog/KernelCatalog.h, lines 137-166
    (normalizeTypeForKernelLookup). *)
Fixpoint normalize (gen : bool) (t : ty) : outcome ty :=
  match t with
  | TMatrix v r _ => Ok (if gen then TStructure else TMatrix v r [])
  | TFrame _ _ => Ok (if gen then TStructure else TFrame [vt_unknown] [])
  | TColumn v _ => Ok (if gen then TStructure else TColumn v [])
  | TList t => if gen then Ok TStructure else let* t' := normalize gen t in Ok (TList t')
  | TMemRef v s => match length s with 1 => Ok (TMemRef v [dyn]) | 2 => Ok (TMemRef v [dyn; dyn]) | _ => Throw end
  | _ => Ok t
  end.

(** * The catalog *)
(** The operations, by mnemonic; those that are treated specially have a
    constructor. *)
Inductive opk :=
| OThetaJoin | OOrder | OGroup | OCreateFrame | OSetColLabels | OCreateList
| ONumCells | ONumCols | ONumRows | OIncRef | ODecRef
| OAvgForward | OMaxForward
| OOther (n : nat).
Global Instance opk_eq_dec : EqDecision opk.
Proof. solve_decision. Defined.
(** KernelCatalog.h, lines 37-80. *)
Record kernel := mkKernel { k_func : name; k_res : list ty; k_args : list ty; k_backend : name; k_lib : name; k_prio : Z }.
(** The catalog as the sequence of registrations: kernelInfosByOp[op] are those for
    [op], in that order (lines 174-192). *)
Definition catalog := list (opk * kernel).
Definition kernel_infos (c : catalog) (op : opk) : list kernel := map snd (filter (fun e => fst e = op) c).

(** KernelCatalog.h, lines 203-246 (findKernel). *)
Fixpoint types_match (a b : list ty) : bool :=
  match a, b with [], [] => true | x :: a, y :: b => bool_decide (x = y) && types_match a b | _, _ => false end.
Definition find_step (args ress : list ty) (backend : name) (chosen : option kernel) (k : kernel) : option kernel :=
  if decide (k_backend k <> backend) then chosen
  else if types_match args (k_args k) && types_match ress (k_res k)
       then match chosen with
            | None => Some k
            | Some k' => if decide (k_prio k' < k_prio k)%Z then Some k else chosen
            end
       else chosen.
Definition find_kernel (c : catalog) (op : opk) (args ress : list ty) (backend : name) : option kernel :=
  fold_left (find_step args ress backend) (kernel_infos c op) None.

(** src/parser/catalog/KernelCatalogParser.cpp, lines 99-146: one entry of a catalog
    file; [tmap] is the map from C++ type names to types (lines 34-97). *)
Record entry := mkEntry { e_op : opk; e_func : name; e_backend : name; e_lib : name; e_res : list name; e_args : list name }.
Section parse.
Context (tmap : name -> option ty).
Fixpoint map_types (l : list name) : outcome (list ty) :=
  match l with
  | [] => Ok []
  | n :: l => match tmap n with Some t => let* r := map_types l in Ok (t :: r) | None => Throw end
  end.
(** [dir] is the directory of the file, with a final slash, or empty; libraries
    with an absolute path are not modelled. *)
Fixpoint parse_catalog (dir : name) (prio : Z) (es : list entry) (c : catalog) : outcome catalog :=
  match es with
  | [] => Ok c
  | e :: es =>
      if decide (e_op e = OAvgForward \/ e_op e = OMaxForward) then parse_catalog dir prio es c
      else let* r := map_types (e_res e) in
           let* a := map_types (e_args e) in
           parse_catalog dir prio es (c ++ [(e_op e, mkKernel (e_func e) r a (e_backend e) (dir ++ e_lib e) prio)])
  end.
End parse.

(** src/api/internal/daphne_internal.cpp, lines 633-664: the argument of
    --kernel-ext.  [rfind] returns what is before and after the last colon. *)
Definition COLON : byte := 58.
Fixpoint rfind (s : list byte) : option (list byte * list byte) :=
  match s with
  | [] => None
  | c :: s => match rfind s with Some (a, b) => Some (c :: a, b) | None => if c =? COLON then Some ([], s) else None end
  end.
(** std::stoll (lines 645-651) with the check that all characters are used: white space, a sign,
    digits, within the range of long long. *)
Definition stoll (s : list byte) : outcome Z :=
  let body := skip_space s in
  let '(neg, ds) := match body with 45 :: r => (true, r) | 43 :: r => (false, r) | _ => (false, body) end in
  if decide (ds <> [] /\ forallb is_digit ds = true)
  then let z := (if neg then - digits_val ds 0 else digits_val ds 0)%Z in
       if decide (- 2 ^ 63 <= z < 2 ^ 63)%Z then Ok z else Throw
  else Throw.
Definition parse_ext (s : list byte) : outcome (list byte * Z) :=
  match rfind s with
  | Some (f, p) => let* z := stoll p in Ok (f, z)
  | None => Ok (s, 0%Z)
  end.

(** * Rewriting to kernel calls *)
(** An operation: its mnemonic, operands (with types), result types, the lengths of
    its operand groups (ODS operands), its attributes that become arguments, and
    the attributes that choose the kernel. *)
Record oper := mkOper {
  o_name : opk; o_args : list (nat * ty); o_res : list ty; o_groups : list nat; o_attrs : list Z;
  o_hint : option name; o_cuda : bool; o_fpga : bool }.
Inductive karg :=
| KVal (v : nat)
| KPack (t : ty) (vs : list nat)
| KEnums (l : list Z)
| KSize (n : nat)
| KId
| KCtx.
Record call := mkCall { c_func : name; c_args : list karg; c_lib : name }.

(** src/compiler/lowering/RewriteToCallKernelOpPass.cpp, lines 52-117: the operations
    with variadic operands, and which of their operands are; None: the operation
    has no variadic operands.  (DistributedComputeOp is not modelled, nor are
    variadic operations for which the pass reports an error.) *)
Definition variadic (o : opk) : option (list bool) :=
  match o with
  | OThetaJoin => Some [false; false; true; true]
  | OOrder => Some [false; true; true; false]
  | OGroup => Some [false; true; true]
  | OCreateFrame => Some [true; true]
  | OSetColLabels => Some [false; true]
  | OCreateList => Some [true]
  | _ => None
  end.
(** Lines 188-194: these take any structure. *)
Definition generalize (o : opk) : bool :=
  match o with OCreateFrame | ONumCells | ONumCols | ONumRows | OIncRef | ODecRef => true | _ => false end.
(** Lines 290-345: these pass their attributes. *)
Definition passes_attrs (o : opk) : bool := match o with OGroup | OThetaJoin => true | _ => false end.
(** Lines 231-253: the type for an operand without occurrences. *)
Definition empty_group_type (o : opk) (i : nat) : option ty :=
  match o, i with OGroup, 2 => Some (TScalar vt_string) | _, _ => None end.

(** src/compiler/lowering/RewriteToCallKernelOpPass.cpp, lines 217-269: one group of operands; returns look-up types and arguments. *)
Definition lower_group (o : oper) (i idx len : nat) (isvar : bool) : outcome (list ty * list karg) :=
  let* t := match len with
            | O => match empty_group_type (o_name o) i with Some t => Ok t | None => Throw end
            | S _ => let* a := rd (o_args o) idx in Ok (snd a)
            end in
  let* lt := normalize (generalize (o_name o)) t in
  if isvar then Ok ([lt; TScalar vt_index], [KPack t (map fst (take len (drop idx (o_args o)))); KSize len])
  else let* a := rd (o_args o) idx in Ok ([lt], [KVal (fst a)]).
Fixpoint lower_groups (o : oper) (i idx : nat) (groups : list nat) (vars : list bool) : outcome (list ty * list karg) :=
  match groups, vars with
  | [], [] => Ok ([], [])
  | len :: groups, isvar :: vars =>
      let* (ts, ks) := lower_group o i idx len isvar in
      let* (ts', ks') := lower_groups o (S i) (idx + len) groups vars in
      Ok (ts ++ ts', ks ++ ks')
  | _, _ => UB
  end.
(** Lines 270-276: without variadic operands. *)
Fixpoint lower_plain (gen : bool) (args : list (nat * ty)) : outcome (list ty * list karg) :=
  match args with
  | [] => Ok ([], [])
  | (v, t) :: args => let* lt := normalize gen t in let* (ts, ks) := lower_plain gen args in Ok (lt :: ts, KVal v :: ks)
  end.
Fixpoint normalize_all (ts : list ty) : outcome (list ty) :=
  match ts with [] => Ok [] | t :: ts => let* t' := normalize false t in let* r := normalize_all ts in Ok (t' :: r) end.

Definition CPP : name := [67; 80; 80].
Definition CUDA : name := [67; 85; 68; 65].
Definition FPGA : name := [70; 80; 71; 65; 79; 80; 69; 78; 67; 76].
Definition backend_of (o : oper) : name := if o_cuda o then CUDA else if o_fpga o then FPGA else CPP.

(** Lines 372-421: the hinted kernel, or the one found. *)
Definition choose (c : catalog) (o : oper) (args ress : list ty) : outcome (name * name) :=
  match o_hint o with
  | Some h => match filter (fun k => k_func k = h) (kernel_infos c (o_name o)) with k :: _ => Ok (h, k_lib k) | [] => Throw end
  | None => match find_kernel c (o_name o) args ress (backend_of o) with Some k => Ok (k_func k, k_lib k) | None => Throw end
  end.
(** Lines 154-454 (matchAndRewrite).  CreateDaphneContext and DestroyDaphneContext,
    which lack the last arguments, are not modelled. *)
Definition lower (c : catalog) (o : oper) : outcome call :=
  let* ress := normalize_all (o_res o) in
  let* (args, ks) := match variadic (o_name o) with
                      | Some vars => lower_groups o 0 0 (o_groups o) vars
                      | None => lower_plain (generalize (o_name o)) (o_args o)
                      end in
  let ks := if passes_attrs (o_name o) then ks ++ [KEnums (o_attrs o); KSize (length (o_attrs o))] else ks in
  let* (f, lib) := choose c o args ress in
  Ok (mkCall f (ks ++ [KId; KCtx]) lib).
Fixpoint lower_all (c : catalog) (os : list oper) : outcome (list call) :=
  match os with [] => Ok [] | o :: os => let* k := lower c o in let* r := lower_all c os in Ok (k :: r) end.
(** src/compiler/execution/DaphneIrExecutor.cpp, lines 252-291: the libraries that
    are loaded are those of the catalog marked as used. *)
Definition libs_of (c : catalog) : list name := map (fun e => k_lib (snd e)) c.
Definition loaded (c : catalog) (ks : list call) : list name := filter (fun l => l ∈ map c_lib ks) (libs_of c).
