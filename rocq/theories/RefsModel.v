(** Model of the compiler pass that inserts the operations increasing and decreasing the reference counters of data objects:
    src/compiler/lowering/ManageObjRefsPass.cpp with findLastUseOfSSAValue of src/compiler/utils/LoweringUtils.cpp, and of what these
    operations do at run time (runtime/local/kernels/IncRef.h, DecRef.h; DataObjectFactory::destroy, see C05).

    The intermediate representation is MLIR's structured control flow. Simplifications: only values that are data objects (matrix, frame,
    list) are shown, conditions and loop bounds are decided by an arbitrary sequence of choices; strings (whose literals the pass keeps
    forever), memref interoperation, values of unknown type and programs that already contain DecRefOps are not modelled; every operation
    without regions other than casts and calls is a kernel call. *)
From stdpp Require Import base numbers list.
From Verif Require Import CppBase.

(** * Programs *)
Inductive op :=
  | OKernel (rs args : list nat)   (* results and operands *)
  | OCast (r a : nat)              (* daphne::CastOp that calls no kernel: isTrivialCast or isRemovePropertyCast *)
  | OIf (rs : list nat) (th el : code)
  | OFor (rs inits ps : list nat) (body : code)
  | OWhile (rs inits bps : list nat) (before : code) (aps : list nat) (after : code)
  | OCall (f : nat) (rs args : list nat)   (* func::CallOp, daphne::GenericCallOp *)
  | OInc (v : nat)                 (* daphne::IncRefOp *)
  | ODec (v : nat)                 (* daphne::DecRefOp *)
with code :=
  | CRet (vs : list nat)           (* the terminator: return, yield or condition *)
  | CCons (o : op) (c : code).
Record func := mkF { f_params : list nat; f_body : code }.

(** The operation or one of the operations nested in it has the operand [v] *)
Fixpoint uses_op (v : nat) (o : op) : bool :=
  match o with
  | OKernel _ args | OCall _ _ args => bool_decide (v ∈ args)
  | OCast _ a => bool_decide (v = a)
  | OIf _ th el => uses v th || uses v el
  | OFor _ inits _ body => bool_decide (v ∈ inits) || uses v body
  | OWhile _ inits _ before _ after => bool_decide (v ∈ inits) || uses v before || uses v after
  | OInc w | ODec w => bool_decide (v = w)
  end
with uses (v : nat) (c : code) : bool :=
  match c with
  | CRet vs => bool_decide (v ∈ vs)
  | CCons o c => uses_op v o || uses v c
  end.
Definition results (o : op) : list nat :=
  match o with
  | OKernel rs _ | OIf rs _ _ | OFor rs _ _ _ | OWhile rs _ _ _ _ _ | OCall _ rs _ => rs
  | OCast r _ => [r]
  | OInc _ | ODec _ => []
  end.

(** * The pass *)
Inductive kind := KIf | KOther.
Fixpoint pre (l : list op) (c : code) : code := match l with [] => c | o :: l => CCons o (pre l c) end.
(** ManageObjRefsPass.cpp 191-195 (incRefArgs) and 215-228: which operations have their operands increased *)
Definition inc_args (o : op) : list nat :=
  match o with
  | OCast _ a => [a]
  | OFor _ inits _ _ | OWhile _ inits _ _ _ _ => inits
  | OCall _ _ args => args
  | _ => []
  end.
(** ManageObjRefsPass.cpp 246-253: one IncRefOp for every pair of equal operands *)
Fixpoint dup_incs (seen vs : list nat) : list nat :=
  match vs with
  | [] => []
  | v :: vs => replicate (length (filter (fun w => w = v) seen)) v ++ dup_incs (seen ++ [v]) vs
  end.
(** ManageObjRefsPass.cpp 229-254: [ds] are the values defined in the block of the terminator *)
Definition term_incs (k : kind) (ds vs : list nat) : list nat :=
  match k with
  | KIf => filter (fun v => v ∉ ds) vs
  | KOther => dup_incs [] vs
  end.
(** ManageObjRefsPass.cpp 106-163 (processValue): the values that are decreased right after [o], when [ds] are the values defined in the
    block before and [c] is the rest of the block: [o] is the last operation of the block that has the value as an operand (itself or in a
    nested block), or [o] defines it and it is never used. Nothing is inserted if the last user is the terminator. Every DecRefOp is
    inserted right after [o], before the ones inserted earlier. *)
Definition decs (ds : list nat) (o : op) (c : code) : list nat :=
  rev (filter (fun v => (uses_op v o = true \/ v ∈ results o) /\ uses v c = false) (ds ++ results o)).
(** ManageObjRefsPass.cpp 204-270 (processBlock): the block arguments first (unused ones are decreased at the beginning of the block), then
    the operations in order *)
Fixpoint manage_op (o : op) : op :=
  match o with
  | OIf rs th el => OIf rs (manage KIf [] th) (manage KIf [] el)
  | OFor rs inits ps body => OFor rs inits ps (pre (map ODec (rev (filter (fun v => uses v body = false) ps))) (manage KOther ps body))
  | OWhile rs inits bps before aps after =>
      OWhile rs inits bps (pre (map ODec (rev (filter (fun v => uses v before = false) bps))) (manage KOther bps before))
             aps (pre (map ODec (rev (filter (fun v => uses v after = false) aps))) (manage KOther aps after))
  | o => o
  end
with manage (k : kind) (ds : list nat) (c : code) : code :=
  match c with
  | CRet vs => pre (map OInc (term_incs k ds vs)) (CRet vs)
  | CCons o c => pre (map OInc (inc_args o)) (CCons (manage_op o) (pre (map ODec (decs ds o c)) (manage k (ds ++ results o) c)))
  end.
Definition manage_block (ps : list nat) (c : code) : code :=
  pre (map ODec (rev (filter (fun v => uses v c = false) ps))) (manage KOther ps c).
(** ManageObjRefsPass.cpp 272-276: runOnOperation *)
Definition manage_func (f : func) : func := mkF (f_params f) (manage_block (f_params f) (f_body f)).

(** * Execution *)
(** An environment maps values to data objects; the heap holds the reference counter of every object created so far, 0 for destroyed ones. *)
Definition env := nat -> option nat.
Notation heap := (list nat) (only parsing).
Definition get (e : env) (h : heap) (v : nat) : outcome nat :=
  match e v with
  | Some o => match h !! o with Some (S _) => Ok o | _ => UB end
  | None => UB
  end.
Fixpoint gets (e : env) (h : heap) (vs : list nat) : outcome (list nat) :=
  match vs with [] => Ok [] | v :: vs => let* o := get e h v in let* os := gets e h vs in Ok (o :: os) end.
Definition bind1 (e : env) (v o : nat) : env := fun w => if decide (w = v) then Some o else e w.
Fixpoint binds (e : env) (vs os : list nat) : env :=
  match vs, os with v :: vs, o :: os => binds (bind1 e v o) vs os | _, _ => e end.
Definition noenv : env := fun _ => None.
(** IncRef.h: Structure::increaseRefCounter *)
Definition inc (e : env) (h : heap) (v : nat) : outcome heap := let* o := get e h v in let* n := rd h o in wr h o (n + 1).
(** DecRef.h: DataObjectFactory::destroy; a destroyed object must not be destroyed again *)
Definition dec (e : env) (h : heap) (v : nat) : outcome heap := let* o := get e h v in let* n := rd h o in wr h o (n - 1).
(** A kernel returns new objects (choice 0) or its argument number k with an increased counter (choice k + 1), see C05. *)
Fixpoint kernel_results (os : list nat) (rs : list nat) (h : heap) (ch : list nat) : outcome (list nat * heap * list nat) :=
  match rs with
  | [] => Ok ([], h, ch)
  | _ :: rs =>
      match ch with
      | [] => Throw
      | k :: ch =>
          let* (o, h) := (match k with
                          | 0 => Ok (length h, h ++ [1])
                          | S k => match os !! k with Some o => let* n := rd h o in let* h := wr h o (n + 1) in Ok (o, h) | None => Ok (length h, h ++ [1]) end
                          end) in
          let* (os', h, ch) := kernel_results os rs h ch in
          Ok (o :: os', h, ch)
      end
  end.
(** [Throw] stands for an execution that goes on (the fuel or the choices do not reach to its end), [UB] for the use of a destroyed object
    or an undefined value. *)
Section run.
  Context (fns : list func).
  Fixpoint run (fuel : nat) (c : code) (e : env) (h : heap) (ch : list nat) : outcome (list nat * heap * list nat) :=
    match fuel with
    | 0 => Throw
    | S fuel =>
        match c with
        | CRet vs => let* os := gets e h vs in Ok (os, h, ch)
        | CCons o c => let* (e, h, ch) := exec fuel o e h ch in run fuel c e h ch
        end
    end
  with exec (fuel : nat) (o : op) (e : env) (h : heap) (ch : list nat) : outcome (env * heap * list nat) :=
    match fuel with
    | 0 => Throw
    | S fuel =>
        match o with
        | OKernel rs args =>
            let* os := gets e h args in
            let* (os', h, ch) := kernel_results os rs h ch in Ok (binds e rs os', h, ch)
        | OCast r a => let* o := get e h a in Ok (bind1 e r o, h, ch)
        | OIf rs th el =>
            match ch with
            | [] => Throw
            | k :: ch => let* (os, h, ch) := run fuel (if decide (k = 0) then el else th) e h ch in Ok (binds e rs os, h, ch)
            end
        | OFor rs inits ps body =>
            let* os := gets e h inits in
            let* (os, h, ch) := loop_for fuel ps body e os h ch in Ok (binds e rs os, h, ch)
        | OWhile rs inits bps before aps after =>
            let* os := gets e h inits in
            let* (os, h, ch) := loop_while fuel bps before aps after e os h ch in Ok (binds e rs os, h, ch)
        | OCall f rs args =>
            let* os := gets e h args in
            match fns !! f with
            | Some fn => let* (os, h, ch) := run fuel (f_body fn) (binds noenv (f_params fn) os) h ch in Ok (binds e rs os, h, ch)
            | None => UB
            end
        | OInc v => let* h := inc e h v in Ok (e, h, ch)
        | ODec v => let* h := dec e h v in Ok (e, h, ch)
        end
    end
  with loop_for (fuel : nat) (ps : list nat) (body : code) (e : env) (os : list nat) (h : heap) (ch : list nat) : outcome (list nat * heap * list nat) :=
    match fuel with
    | 0 => Throw
    | S fuel =>
        match ch with
        | [] => Throw
        | 0 :: ch => Ok (os, h, ch)
        | S _ :: ch => let* (os, h, ch) := run fuel body (binds e ps os) h ch in loop_for fuel ps body e os h ch
        end
    end
  with loop_while (fuel : nat) (bps : list nat) (before : code) (aps : list nat) (after : code) (e : env) (os : list nat) (h : heap) (ch : list nat) : outcome (list nat * heap * list nat) :=
    match fuel with
    | 0 => Throw
    | S fuel =>
        let* (os, h, ch) := run fuel before (binds e bps os) h ch in
        match ch with
        | [] => Throw
        | 0 :: ch => Ok (os, h, ch)
        | S _ :: ch => let* (os, h, ch) := run fuel after (binds e aps os) h ch in loop_while fuel bps before aps after e os h ch
        end
    end.
End run.
