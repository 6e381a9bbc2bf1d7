(** Model of the translation of DaphneDSL statements into SSA form with structured control flow: src/parser/daphnedsl/DaphneDSLVisitor.cpp
    (visitBlockStatement, visitAssignStatement with handleAssignmentPart and renameIf, visitIfStatement, visitWhileStatement,
    visitForStatement) and src/parser/ScopedSymbolTable.h.

    Simplifications: values are of an arbitrary type; [int] and [num] are their conversions from and to (unbounded) integers, [truthy] the
    conversion to bool (castBoolIf); expressions apply arbitrary functions; casts that depend on types are part of these functions; checks of
    types, function definitions, calls, return and import are not modelled; variables and SSA values are numbers; the order in which the
    hash map of overwritten variables is traversed is that of [map_to_list]. *)
From stdpp Require Import base numbers list gmap.
From Coq Require Import ZArith.

(** * Scripts *)
Section script.
  Context {V : Type}.
  Inductive expr := EVar (x : nat) | EOp (f : list V -> V) (es : exprs)
  with exprs := ENil | ECons (e : expr) (es : exprs).
  Inductive stmt :=
    | SAssign (x : nat) (e : expr)
    | SExpr (e : expr)
    | SBlock (ss : stmts)
    | SIf (c : expr) (th el : stmt)   (* a missing else is an empty block *)
    | SWhile (c : expr) (b : stmt)
    | SDo (b : stmt) (c : expr)
    | SFor (x : nat) (from to : expr) (step : option expr) (b : stmt)
  with stmts := SNil | SCons (s : stmt) (ss : stmts).
End script.
Arguments expr : clear implicits.
Arguments exprs : clear implicits.
Arguments stmt : clear implicits.
Arguments stmts : clear implicits.

(** * The intermediate representation *)
Section ir.
  Context {V : Type}.
  Inductive op :=
    | IOp (r : nat) (f : list V -> V) (args : list nat)
    | IIf (c : nat) (rs : list nat) (th el : code)
    | IFor (lo hi st : nat) (rs inits : list nat) (iv : nat) (ps : list nat) (body : code)
    | IWhile (rs inits bps : list nat) (before : code) (aps : list nat) (after : code)   (* [before] ends with the condition and the values *)
  with code := CRet (vs : list nat) | CCons (o : op) (c : code).
  Fixpoint mk (ops : list op) (vs : list nat) : code := match ops with [] => CRet vs | o :: ops => CCons o (mk ops vs) end.
  (** mlir::Value::replaceUsesWithIf restricted to the operations nested in a region *)
  Definition rp (v p u : nat) : nat := if decide (u = v) then p else u.
  Fixpoint repl_op (v p : nat) (o : op) : op :=
    match o with
    | IOp r f args => IOp r f (map (rp v p) args)
    | IIf c rs th el => IIf (rp v p c) rs (repl v p th) (repl v p el)
    | IFor lo hi st rs inits iv ps body => IFor (rp v p lo) (rp v p hi) (rp v p st) rs (map (rp v p) inits) iv ps (repl v p body)
    | IWhile rs inits bps before aps after => IWhile rs (map (rp v p) inits) bps (repl v p before) aps (repl v p after)
    end
  with repl (v p : nat) (c : code) : code :=
    match c with
    | CRet vs => CRet (map (rp v p) vs)
    | CCons o c => CCons (repl_op v p o) (repl v p c)
    end.
  Fixpoint repl_all (l : list (nat * nat)) (c : code) : code := match l with [] => c | (v, p) :: l => repl_all l (repl v p c) end.
End ir.
Arguments op : clear implicits.
Arguments code : clear implicits.

(** * The symbol table (ScopedSymbolTable.h): a stack of scopes, the current one first *)
Notation info := (nat * bool)%type (only parsing).   (* SymbolInfo: value, isReadOnly *)
Notation scope := (gmap nat info) (only parsing).
(** ScopedSymbolTable.h 126-133 (get): the current scope first *)
Definition vis (scs : list scope) : scope := foldr union ∅ scs.
(** ScopedSymbolTable.h 88-95, 113 (has(mlir::Value)) *)
Definition has_val (scs : list scope) (v : nat) : bool := existsb (fun s => existsb (fun xi => Nat.eqb (fst (snd xi)) v) (map_to_list (M := scope) s)) scs.
(** ScopedSymbolTable.h 197 (put) *)
Definition put (x : nat) (i : info) (scs : list scope) : list scope := match scs with s :: r => <[x:=i]> s :: r | [] => [] end.
(** ScopedSymbolTable.h 207-213 (put of a table) *)
Definition put_all (t : scope) (scs : list scope) : list scope := match scs with s :: r => (t ∪ s) :: r | [] => [] end.
(** ScopedSymbolTable.h 236-245 (popScope) *)
Definition pop (scs : list scope) : scope * list scope :=
  match scs with s :: r => (filter (fun xi => is_Some (vis r !! xi.1)) s, r) | [] => (∅, []) end.
Definition puts (names rs : list nat) (scs : list scope) : list scope := foldl (fun scs xr => put xr.1 (xr.2, false) scs) scs (zip names rs).

(** * The translation *)
Section trans.
  Context {V : Type} (int : V -> Z) (num : Z -> V) (dflt : V).
  Definition arg (k : nat) (vs : list V) : V := default dflt (vs !! k).
  Fixpoint t_expr (scs : list scope) (e : expr V) (nx : nat) : option (list (op V) * nat * nat) :=
    match e with
    | EVar x => i ← vis scs !! x; Some ([], fst i, nx)   (* 915-927 *)
    | EOp f es => '(ops, vs, nx) ← t_exprs scs es nx; Some (ops ++ [IOp nx f vs], nx, S nx)
    end
  with t_exprs (scs : list scope) (es : exprs V) (nx : nat) : option (list (op V) * list nat * nat) :=
    match es with
    | ENil => Some ([], [], nx)
    | ECons e es => '(o1, v, nx) ← t_expr scs e nx; '(o2, vs, nx) ← t_exprs scs es nx; Some (o1 ++ o2, v :: vs, nx)
    end.
  (** DaphneDSLVisitor.cpp 764-797: the operations that compute the bounds of the loop. Results: the operations, the values of the lower bound,
      the upper bound, the step and the direction. The operations that compute the default step (a comparison, a cast, a multiplication and an
      addition) are merged into one *)
  Definition t_bounds (scs : list scope) (from to : expr V) (step : option (expr V)) (nx : nat) : option (list (op V) * (nat * nat * nat * nat) * nat) :=
    '(o1, vf, nx) ← t_expr scs from nx;
    '(o2, vt, nx) ← t_expr scs to nx;
    '(o3, vs, vd, nx) ← (match step with
       | Some e => '(o, vs, nx) ← t_expr scs e nx; Some (o ++ [IOp nx (fun l => num (Z.sgn (int (arg 0 l)))) [vs]], vs, nx, S nx)
       | None => Some ([IOp nx (fun l => num (-1 + 2 * (if decide (int (arg 0 l) >= int (arg 1 l)) then 1 else 0)))%Z [vt; vf]], nx, nx, S nx)
       end);
    let mul := fun l => num (int (arg 0 l) * int (arg 1 l))%Z in
    Some (o1 ++ o2 ++ o3 ++ [IOp nx (fun l => num (int (arg 0 l) + int (arg 1 l))%Z) [vt; vd];
                             IOp (nx + 1) mul [vf; vd]; IOp (nx + 2) mul [nx; vd]; IOp (nx + 3) mul [vs; vd]], (nx + 1, nx + 2, nx + 3, vd), nx + 4).
  Fixpoint t_stmt (s : stmt V) (scs : list scope) (nx : nat) : option (list (op V) * list scope * nat) :=
    match s with
    | SAssign x e =>   (* 529-540, 61-104 *)
        '(ops, v, nx) ← t_expr scs e nx;
        if (match vis scs !! x with Some i => snd i | None => false end) then None else
        if has_val scs v then Some (ops ++ [IOp nx (arg 0) [v]], put x (nx, false) scs, S nx)   (* 54-59: renameIf *)
        else Some (ops, put x (v, false) scs, nx)
    | SExpr e => '(ops, _, nx) ← t_expr scs e nx; Some (ops, scs, nx)
    | SBlock ss =>   (* 359-364 *)
        '(ops, scs, nx) ← t_stmts ss (∅ :: scs) nx;
        let '(ow, scs) := pop scs in Some (ops, put_all ow scs, nx)
    | SIf c th el =>   (* 562-646 *)
        '(oc, vc, nx) ← t_expr scs c nx;
        '(ot, scs, nx) ← t_stmt th (∅ :: scs) nx;
        let '(owt, scs) := pop scs in
        '(oe, scs, nx) ← t_stmt el (∅ :: scs) nx;
        let '(owe, scs) := pop scs in
        let names := map fst (map_to_list (owt ∪ owe)) in
        vts ← mapM (fun x => i ← (owt ∪ vis scs) !! x; Some (fst (i : info))) names;
        ves ← mapM (fun x => i ← (owe ∪ vis scs) !! x; Some (fst (i : info))) names;
        let rs := seq nx (length names) in
        Some (oc ++ [IIf vc rs (mk ot vts) (mk oe ves)], puts names rs scs, nx + length names)
    | SWhile c b =>   (* 648-753, while *)
        '(oc, vc, nx) ← t_expr scs c nx;
        '(ob, scs, nx) ← t_stmt b (∅ :: scs) nx;
        let '(ow, scs) := pop scs in
        let names := map fst (map_to_list ow) in
        let vals := map (fun xi => fst (snd xi)) (map_to_list ow) in
        inits ← mapM (fun x => i ← vis scs !! x; Some (fst i)) names;
        let k := length names in
        let bps := seq nx k in let aps := seq (nx + k) k in let rs := seq (nx + 2 * k) k in
        Some ([IWhile rs inits bps (repl_all (zip inits bps) (mk oc (vc :: bps))) aps (repl_all (zip inits aps) (mk ob vals))], puts names rs scs, nx + 3 * k)
    | SDo b c =>   (* 648-753, do-while *)
        '(ob, scs, nx) ← t_stmt b (∅ :: ∅ :: scs) nx;
        let '(ow, scs) := pop scs in
        '(oc, vc, nx) ← t_expr (put_all ow scs) c nx;
        let '(_, scs) := pop (put_all ow scs) in
        let names := map fst (map_to_list ow) in
        let vals := map (fun xi => fst (snd xi)) (map_to_list ow) in
        inits ← mapM (fun x => i ← vis scs !! x; Some (fst i)) names;
        let k := length names in
        let bps := seq nx k in let aps := seq (nx + k) k in let rs := seq (nx + 2 * k) k in
        Some ([IWhile rs inits bps (repl_all (zip inits bps) (mk (ob ++ oc) (vc :: vals))) aps (repl_all (zip inits aps) (mk [] aps))], puts names rs scs, nx + 3 * k)
    | SFor x from to step b =>   (* 755-857; [nx] becomes the induction variable *)
        '(oh, (lo, hi, st, dir), nx) ← t_bounds scs from to step nx;
        let iv := nx in
        '(ob, scs, nx) ← t_stmt b ({[x := (nx + 1, true)]} :: scs) (nx + 2);
        let '(ow, scs) := pop scs in
        let names := map fst (map_to_list ow) in
        let vals := map (fun xi => fst (snd xi)) (map_to_list ow) in
        inits ← mapM (fun x => i ← vis scs !! x; Some (fst i)) names;
        let k := length names in
        let ps := seq nx k in let rs := seq (nx + k) k in
        Some (oh ++ [IFor lo hi st rs inits iv ps (repl_all (zip inits ps) (mk (IOp (iv + 1) (fun l => num (int (arg 0 l) * int (arg 1 l))%Z) [iv; dir] :: ob) vals))], puts names rs scs, nx + 2 * k)
    end
  with t_stmts (ss : stmts V) (scs : list scope) (nx : nat) : option (list (op V) * list scope * nat) :=
    match ss with
    | SNil => Some ([], scs, nx)
    | SCons s ss => '(o1, scs, nx) ← t_stmt s scs nx; '(o2, scs, nx) ← t_stmts ss scs nx; Some (o1 ++ o2, scs, nx)
    end.
End trans.

(** * What the intermediate representation computes (MLIR's scf dialect) *)
Section exec.
  Context {V : Type} (int : V -> Z) (num : Z -> V) (truthy : V -> bool).
  Definition env := nat -> V.
  Definition bind1 (e : env) (v : nat) (x : V) : env := fun w => if decide (w = v) then x else e w.
  Fixpoint binds (e : env) (vs : list nat) (xs : list V) : env :=
    match vs, xs with v :: vs, x :: xs => binds (bind1 e v x) vs xs | _, _ => e end.
  (** The values of the induction variable of scf.for; a step that is not positive is not allowed *)
  Definition counts (lo hi st : Z) : option (list Z) :=
    if decide (hi <= lo)%Z then Some [] else if decide (st <= 0)%Z then None
    else Some (map (fun k => lo + Z.of_nat k * st)%Z (seq 0 (Z.to_nat ((hi - lo + st - 1) / st)))).
  Fixpoint for_loop (body : Z -> list V -> option (list V)) (is : list Z) (vals : list V) : option (list V) :=
    match is with [] => Some vals | i :: is => vals ← body i vals; for_loop body is vals end.
  (** [n] bounds the number of iterations of while loops; None: not finished *)
  Fixpoint while_loop (n : nat) (before after : list V -> option (list V)) (vals : list V) : option (list V) :=
    match n with
    | 0 => None
    | S n => out ← before vals; match out with c :: out => if truthy c then vals ← after out; while_loop n before after vals else Some out | [] => None end
    end.
  Fixpoint xop (n : nat) (o : op V) (e : env) : option env :=
    match o with
    | IOp r f args => Some (bind1 e r (f (map e args)))
    | IIf c rs th el => vs ← (if truthy (e c) then xcode n th e else xcode n el e); Some (binds e rs vs)
    | IFor lo hi st rs inits iv ps body =>
        is ← counts (int (e lo)) (int (e hi)) (int (e st));
        vs ← for_loop (fun i vals => xcode n body (binds (bind1 e iv (num i)) ps vals)) is (map e inits);
        Some (binds e rs vs)
    | IWhile rs inits bps before aps after =>
        vs ← while_loop n (fun vals => xcode n before (binds e bps vals)) (fun vals => xcode n after (binds e aps vals)) (map e inits);
        Some (binds e rs vs)
    end
  with xcode (n : nat) (c : code V) (e : env) : option (list V) :=
    match c with
    | CRet vs => Some (map e vs)
    | CCons o c => e ← xop n o e; xcode n c e
    end.
  Fixpoint xops (n : nat) (ops : list (op V)) (e : env) : option env :=
    match ops with [] => Some e | o :: ops => e ← xop n o e; xops n ops e end.
End exec.
