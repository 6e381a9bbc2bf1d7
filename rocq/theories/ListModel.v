(** Model of lists of matrices: the objects in memory with their reference counters, the kernels on lists, and how lists are typed and compiled.
    Matrices are not changed once they exist: only their contents matter, as a value of type [V]. *)
From stdpp Require Import base numbers list.
From Verif Require Import CppBase.

Section Heap.
  Context {V : Type}.
  (** src/runtime/local/datastructures/Structure.h 30: refCounter; List.h 37: elements (addresses of matrices) *)
  Inductive obj := OMat (rc : nat) (v : V) | OList (rc : nat) (els : list nat).
  (** Addresses are never used again, so that using a deleted object is seen: None. *)
  Local Notation heap := (list (option obj)).
  (** src/runtime/local/datastructures/DataObjectFactory.h 35-38, Structure.cpp 20: create *)
  Definition alloc (h : heap) (o : obj) : heap * nat := (h ++ [Some o], length h).
  (** src/runtime/local/datastructures/Structure.h 66-70: increaseRefCounter *)
  Definition inc (h : heap) (a : nat) : outcome heap :=
    match h !! a with
    | Some (Some (OMat rc v)) => Ok (<[a := Some (OMat (rc + 1) v)]> h)
    | Some (Some (OList rc els)) => Ok (<[a := Some (OList (rc + 1) els)]> h)
    | _ => UB
    end.
  (** src/runtime/local/datastructures/DataObjectFactory.h 52-64: destroy, for a matrix *)
  Definition dec_mat (h : heap) (a : nat) : outcome heap :=
    match h !! a with
    | Some (Some (OMat rc v)) => if decide (rc = 0) then UB else if decide (rc - 1 = 0) then Ok (<[a := None]> h) else Ok (<[a := Some (OMat (rc - 1) v)]> h)
    | _ => UB
    end.
  Fixpoint dec_mats (h : heap) (l : list nat) : outcome heap :=
    match l with [] => Ok h | a :: l => let* h := dec_mat h a in dec_mats h l end.
  (** The same for any object; src/runtime/local/datastructures/List.h 64-69: ~List.  Simplification: the list goes before its elements. *)
  Definition destroy (h : heap) (a : nat) : outcome heap :=
    match h !! a with
    | Some (Some (OList rc els)) =>
        if decide (rc = 0) then UB else if decide (rc - 1 = 0) then dec_mats (<[a := None]> h) els else Ok (<[a := Some (OList (rc - 1) els)]> h)
    | _ => dec_mat h a
    end.
  (** src/runtime/local/datastructures/List.h: the vector of elements *)
  Definition els_of (h : heap) (l : nat) : outcome (list nat) := match h !! l with Some (Some (OList _ els)) => Ok els | _ => UB end.
  Definition set_els (h : heap) (l : nat) (els : list nat) : outcome heap :=
    match h !! l with Some (Some (OList rc _)) => Ok (<[l := Some (OList rc els)]> h) | _ => UB end.
  (** src/runtime/local/datastructures/List.h 123-128: append (and 53-59, one element of the copy) *)
  Definition l_append (h : heap) (l e : nat) : outcome heap :=
    let* h := inc h e in
    let* els := els_of h l in
    set_els h l (els ++ [e]).
  Fixpoint l_appends (h : heap) (l : nat) (es : list nat) : outcome heap :=
    match es with [] => Ok h | e :: es => let* h := l_append h l e in l_appends h l es end.
  (** src/runtime/local/datastructures/List.h 137-147: remove *)
  Definition l_remove (h : heap) (l idx : nat) : outcome (heap * nat) :=
    let* els := els_of h l in
    if decide (length els <= idx) then Throw
    else let* e := rd els idx in
         let* h := set_els h l (take idx els ++ drop (S idx) els) in
         Ok (h, e).
  (** src/runtime/local/kernels/CreateList.h 29-33 *)
  Definition k_create (h : heap) (es : list nat) : outcome (heap * nat) :=
    let (h, l) := alloc h (OList 1 []) in
    let* h := l_appends h l es in
    Ok (h, l).
  (** src/runtime/local/datastructures/List.h 53-61: the copy of a list *)
  Definition l_copy (h : heap) (l : nat) : outcome (heap * nat) :=
    let* es := els_of h l in
    k_create h es.
  (** src/runtime/local/kernels/Append.h 29-32 *)
  Definition k_append (h : heap) (l e : nat) : outcome (heap * nat) :=
    let* (h, l') := l_copy h l in
    let* h := l_append h l' e in
    Ok (h, l').
  (** src/runtime/local/kernels/Remove.h 29-32 *)
  Definition k_remove (h : heap) (l idx : nat) : outcome (heap * nat * nat) :=
    let* (h, l') := l_copy h l in
    let* (h, e) := l_remove h l' idx in
    Ok (h, l', e).
  (** src/runtime/local/kernels/Length.h 28 *)
  Definition k_length (h : heap) (l : nat) : outcome nat := let* es := els_of h l in Ok (length es).
  (** src/runtime/local/datastructures/List.h 80-85: what print shows of the elements *)
  Definition mat_of (h : heap) (a : nat) : outcome V := match h !! a with Some (Some (OMat _ v)) => Ok v | _ => UB end.
  Fixpoint mats_of (h : heap) (es : list nat) : outcome (list V) :=
    match es with [] => Ok [] | e :: es => let* v := mat_of h e in let* vs := mats_of h es in Ok (v :: vs) end.
  Definition k_print (h : heap) (l : nat) : outcome (list V) := let* es := els_of h l in mats_of h es.

  (** A compiled script without control flow: each statement binds the next variables; DecRef ends the life of a variable
      (src/compiler/lowering/ManageObjRefsPass.cpp 96-160). *)
  Inductive stmt := SMat (v : V) | SCreate (xs : list nat) | SAppend (x y : nat) | SRemove (x : nat) (idx : nat) | SLength (x : nat) | SPrint (x : nat) | SShow (x : nat) | SDec (x : nat).
  Inductive shown := ShLength (n : nat) | ShList (vs : list V) | ShMat (v : V).
  Record state := mkSt { s_heap : heap; s_env : list (option nat); s_out : list shown }.
  Definition var (s : state) (x : nat) : outcome nat := match s_env s !! x with Some (Some a) => Ok a | _ => UB end.
  Fixpoint vars (s : state) (xs : list nat) : outcome (list nat) :=
    match xs with [] => Ok [] | x :: xs => let* a := var s x in let* l := vars s xs in Ok (a :: l) end.
  Definition step (s : state) (c : stmt) : outcome state :=
    match c with
    | SMat v => let (h, a) := alloc (s_heap s) (OMat 1 v) in Ok (mkSt h (s_env s ++ [Some a]) (s_out s))
    | SCreate xs => let* es := vars s xs in let* (h, l) := k_create (s_heap s) es in Ok (mkSt h (s_env s ++ [Some l]) (s_out s))
    | SAppend x y => let* l := var s x in let* e := var s y in let* (h, l') := k_append (s_heap s) l e in Ok (mkSt h (s_env s ++ [Some l']) (s_out s))
    | SRemove x idx => let* l := var s x in let* (h, l', e) := k_remove (s_heap s) l idx in Ok (mkSt h (s_env s ++ [Some l'; Some e]) (s_out s))
    | SLength x => let* l := var s x in let* n := k_length (s_heap s) l in Ok (mkSt (s_heap s) (s_env s) (s_out s ++ [ShLength n]))
    | SPrint x => let* l := var s x in let* vs := k_print (s_heap s) l in Ok (mkSt (s_heap s) (s_env s) (s_out s ++ [ShList vs]))
    | SShow x => let* a := var s x in let* v := mat_of (s_heap s) a in Ok (mkSt (s_heap s) (s_env s) (s_out s ++ [ShMat v]))
    | SDec x => let* a := var s x in let* h := destroy (s_heap s) a in Ok (mkSt h (<[x := None]> (s_env s)) (s_out s))
    end.
  Fixpoint run (s : state) (p : list stmt) : outcome state := match p with [] => Ok s | c :: p => let* s := step s c in run s p end.
End Heap.
Arguments obj : clear implicits.
Arguments stmt : clear implicits.
Arguments state : clear implicits.
Arguments shown : clear implicits.

(** * Types *)
Inductive repr := Dense | Sparse.
(** Unknown, a matrix with a value type (None: unknown) and a representation, or something else *)
Inductive ty := TUnk | TMat (vt : option nat) (r : repr) | TOther.
(** src/ir/daphneir/DaphneInferTypesOpInterface.cpp 702-735: the value type of the elements; withSameElementType() forgets the representation.
    ListType::get with a null type is undefined behaviour. *)
Fixpoint infer_elems (acc : option nat) (ts : list ty) : outcome (option nat) :=
  match ts with
  | [] => Ok acc
  | TUnk :: ts => infer_elems acc ts
  | TMat None _ :: ts => infer_elems acc ts
  | TMat (Some v) _ :: ts => match acc with None => infer_elems (Some v) ts | Some w => if decide (w = v) then infer_elems acc ts else Throw end
  | TOther :: _ => Throw
  end.
Definition infer_list (ts : list ty) : outcome (nat * repr) :=
  if decide (ts = []) then Throw
  else let* v := infer_elems None ts in
       match v with Some v => Ok (v, Dense) | None => UB end.
(** src/compiler/inference/SelectMatrixRepresentationsPass.cpp 42-49: matrices known to be sparse; lists are left as they are *)
Definition select (sparse : bool) (t : ty) : ty := match t with TMat v _ => if sparse then TMat v Sparse else t | _ => t end.
(** src/compiler/lowering/RewriteToCallKernelOpPass.cpp 220-285, kernels.json 6229-6280: the kernel is looked up by the type of the list and that
    of the first element; it is there for dense and sparse matrices of all value types.  The result: what the kernel takes all elements for. *)
Definition lookup_create (lt : nat * repr) (ts : list ty) : outcome (nat * repr) :=
  match ts with
  | TMat (Some v) r :: _ => if decide (fst lt = v) then match snd lt, r with Dense, Dense | Sparse, Sparse => Ok (v, r) | _, _ => Throw end else Throw
  | _ => Throw
  end.
(** Types are inferred, then representations are selected, then the kernel is looked up
    (src/compiler/execution/DaphneIrExecutor.cpp 144, 171-174). *)
Definition compile_create (els : list (ty * bool)) : outcome (nat * repr) :=
  let* lt := infer_list (map fst els) in
  lookup_create lt (map (fun e => select (snd e) (fst e)) els).
(** src/ir/daphneir/DaphneOps.td 2025-2032 (TypeFromFirstArg), kernels.json 6315-6361: append *)
Definition compile_append (lt : nat * repr) (t : ty) : outcome (nat * repr) :=
  match t with TMat (Some v) r => if decide (fst lt = v) then match snd lt, r with Dense, Dense | Sparse, Sparse => Ok lt | _, _ => Throw end else Throw | _ => Throw end.
