(** * User-defined functions: resolving calls and specializing functions for the types and constants they are called with
    src/parser/daphnedsl/DaphneDSLVisitor.cpp (resolution of calls) and src/compiler/lowering/SpecializeGenericFunctionsPass.cpp.
    What is simplified:
    - a body is one expression that computes the one result of the function. Loops, variables that are assigned several times, effects
      and several results are left out; there are operations, calls, map and if.
    - the types of operations are always those inferred from their operands (as the parser and inferTypesInFunction set them); the
      constant folding of canonicalization does not use types. Where two branches of an if have no common type, the model goes on with
      the unknown type (the code raises an error).
    - the call sites of a function are kept in a table: [Call k es] is the call whose callee and result type are entry k. *)
From stdpp Require Import base numbers list gmap.
From Verif Require Import CppBase.

(** Value types, as numbers. *)
Definition vtype := nat.
(** DaphneTypes.td: rows, columns, sparsity (None is -1) and what else there is (symmetry, representation). *)
Definition props := (option nat * option nat * option nat * nat)%type.
Inductive ty := Unk | Sca (v : vtype) | Mat (v : option vtype) (p : props) | Oth (k : nat).
Global Instance ty_eq_dec : EqDecision ty. Proof. solve_decision. Defined.
(** SpecializeGenericFunctionsPass.cpp 68: no rows, columns and sparsity known. *)
Definition no_props (p : props) : bool := match p with (None, None, None, _) => true | _ => false end.

(** The symbol of a function: the definition (ParserUtils.h 247-250: name-1, name-2, ...; all different) and what has been appended by
    specialization (SpecializeGenericFunctionsPass.cpp 73-76: symbol-1, symbol-2, ...). *)
Notation name := (nat * list nat)%type.
Definition main : name := (0, []).

(** DaphneDSLVisitor.cpp 940-956: argAndUDFParamCompatible. *)
Definition compatible (arg par : ty) : bool :=
  bool_decide (par = arg) || bool_decide (arg = Unk) || bool_decide (par = Unk) ||
  match arg, par with Mat v _, Mat w _ => bool_decide (v = None) || bool_decide (w = None) | _, _ => false end.
(** DaphneDSLVisitor.cpp 958-1020: findMatchingUDF among the definitions of the called name, in the order in which they were made. *)
Fixpoint all_compatible (args pars : list ty) : bool :=
  match args, pars with
  | [], [] => true
  | a :: args', p :: pars' => compatible a p && all_compatible args' pars'
  | _, _ => false
  end.
Fixpoint find_udf (defs : list (name * list ty)) (args : list ty) : option name :=
  match defs with [] => None | (n, pars) :: defs' => if all_compatible args pars then Some n else find_udf defs' args end.

(** An entry of the table of calls: the callee and the type of the result. *)
Notation site := (name * ty)%type.

Section udf.
  Context {val op : Type}.
  (** The type of a constant; the truth of a condition; the constants that canonicalization folds; the type inference of an operation. *)
  Context (vty : val → ty) (truth : val → option bool) (fold : op → list val → option val) (opty : op → list ty → ty).

  Inductive exp :=
    | Var (i : nat)
    | Cst (c : val)
    | Op (o : op) (es : list exp)
    | Call (k : nat) (es : list exp)
    | MapE (k : nat) (e : exp)
    | If (c t e : exp).
  Record func := Func { params : list ty; res : ty; sites : list site; body : exp }.

  (** SpecializeGenericFunctionsPass.cpp 45-51: isUntypedFunction; 65-72: isFunctionTemplate. *)
  Definition untyped_par (t : ty) : bool := match t with Unk => true | Mat None _ => true | _ => false end.
  Definition template_par (t : ty) : bool := match t with Unk => true | Mat None _ => true | Mat _ p => no_props p | _ => false end.
  Definition is_untyped (F : func) : bool := existsb untyped_par (params F).
  Definition is_template (F : func) : bool := existsb template_par (params F).

  (** CompilerUtils.h 95-101: constantOfAnyType. *)
  Definition const_of (e : exp) : option val := match e with Cst c => Some c | _ => None end.
  Definition is_const (e : exp) : bool := match e with Cst _ => true | _ => false end.

  (** InferencePass.cpp 60-82: getTypeWithCommonInfo. *)
  Definition meet {A} `{EqDecision A} (a b : option A) : option A := if decide (a = b) then a else None.
  Definition common (a b : ty) : ty :=
    if decide (a = b) then a
    else match a, b with
         | Mat v (r, c, s, x), Mat w (r', c', s', y) => Mat (meet v w) (meet r r', meet c c', meet s s', if decide (x = y) then x else 0)
         | _, _ => Unk
         end.
  (** The type of an expression, given those of the parameters and the table of calls. *)
  Fixpoint typ (G : list ty) (S : list site) (e : exp) : ty :=
    match e with
    | Var i => default Unk (G !! i)
    | Cst c => vty c
    | Op o es => opty o (typ G S <$> es)
    | Call k _ | MapE k _ => default Unk (snd <$> S !! k)
    | If _ t e => common (typ G S t) (typ G S e)
    end.

  (** Canonicalization: constant folding, and an if whose condition is constant. *)
  Fixpoint simp (e : exp) : exp :=
    match e with
    | Var _ | Cst _ => e
    | Op o es =>
        let es' := simp <$> es in
        match mapM const_of es' with
        | Some cs => match fold o cs with Some c => Cst c | None => Op o es' end
        | None => Op o es'
        end
    | Call k es => Call k (simp <$> es)
    | MapE k e => MapE k (simp e)
    | If c t e =>
        match simp c with
        | Cst b => match truth b with Some true => simp t | Some false => simp e | None => If (Cst b) (simp t) (simp e) end
        | c' => If c' (simp t) (simp e)
        end
    end.
  (** 161-188: inferTypesInFunction; the type of the function becomes that of the value it returns (InferencePass.cpp 487-489). *)
  Definition infer_fn (F : func) : func := Func (params F) (typ (params F) (sites F) (simp (body F))) (sites F) (simp (body F)).

  (** 243-250: the argument is replaced by the constant. *)
  Fixpoint subst (cs : list (option val)) (e : exp) : exp :=
    match e with
    | Var i => match cs !! i with Some (Some c) => Cst c | _ => e end
    | Cst _ => e
    | Op o es => Op o (subst cs <$> es)
    | Call k es => Call k (subst cs <$> es)
    | MapE k e => MapE k (subst cs e)
    | If c t e => If (subst cs c) (subst cs t) (subst cs e)
    end.

  (** The calls of an expression, innermost first (the order of function.walk), with their operands; the same for map. *)
  Fixpoint calls_of (e : exp) : list (nat * list exp) :=
    match e with
    | Var _ | Cst _ => []
    | Op _ es => es ≫= calls_of
    | Call k es => (es ≫= calls_of) ++ [(k, es)]
    | MapE _ e => calls_of e
    | If c t e => calls_of c ++ calls_of t ++ calls_of e
    end.
  Fixpoint maps_of (e : exp) : list (nat * exp) :=
    match e with
    | Var _ | Cst _ => []
    | Op _ es | Call _ es => es ≫= maps_of
    | MapE k e => maps_of e ++ [(k, e)]
    | If c t e => maps_of c ++ maps_of t ++ maps_of e
    end.

  (** 190-196: the state of the pass. [fns] has all functions, [next] is the counter for new symbols. *)
  Record st := St {
    fns : gmap name func; versions : list (name * name); visited : list name; called : list name; templs : list name; next : nat }.
  Definition set_fn (n : name) (F : func) (s : st) : st :=
    St (<[n := F]> (fns s)) (versions s) (visited s) (called s) (templs s) (next s).
  Definition add_visited (n : name) (s : st) : st := St (fns s) (versions s) (n :: visited s) (called s) (templs s) (next s).
  Definition add_called (n : name) (s : st) : st := St (fns s) (versions s) (visited s) (n :: called s) (templs s) (next s).
  Definition add_templ (n : name) (s : st) : st := St (fns s) (versions s) (visited s) (called s) (n :: templs s) (next s).

  (** 103-142: getSpecializedFuncArgTypes: is the type of the argument fine for the parameter? *)
  Definition fits (par arg : ty) : bool :=
    bool_decide (par = arg) || bool_decide (par = Unk) ||
    match par, arg with
    | Mat v p, Mat w _ => bool_decide (v = None) || (bool_decide (v = w) && no_props p)
    | _, _ => false
    end.
  Definition spec_types (pars args : list ty) : option (list ty) :=
    if forallb (fun pa => fits pa.1 pa.2) (zip pars args) then Some (snd <$> zip pars args) else None.
  (** 86-97: callTypesMatchFunctionTypes. *)
  Definition match_types (pars args : list ty) : bool := forallb (fun pa => bool_decide (pa.1 = pa.2)) (zip pars args).

  Context (ipa : bool).  (* userConfig.use_ipa_const_propa *)

  (** 274-301: tryReuseExistingSpecialization. *)
  Fixpoint find_version (M : gmap name func) (g : name) (tys : list ty) (vs : list (name * name)) : option name :=
    match vs with
    | [] => None
    | (h, n) :: vs' =>
        if bool_decide (h = g) && match M !! n with Some V => match_types (params V) tys | None => false end then Some n
        else find_version M g tys vs'
    end.
  Definition try_reuse (s : st) (g : name) (tys : list ty) (es : list exp) : option name :=
    if ipa && existsb is_const es then None else find_version (fns s) g tys (versions s).
  (** 215-262: createSpecializedFunction. *)
  Definition create_spec (s : st) (g : name) (G : func) (tys : list ty) (es : list exp) : st * name :=
    let n := (g.1, g.2 ++ [next s]) in
    let ins := ipa && negb (is_untyped G) in
    let cs := if ins then const_of <$> es else [] in
    let F := infer_fn (Func tys (res G) (sites G) (subst cs (body G))) in
    (St (<[n := F]> (fns s)) (if ins && existsb is_const es then versions s else versions s ++ [(g, n)])
        (visited s) (called s) (templs s) (S (next s)), n).
  (** 314-335: createOrReuseSpecialization. *)
  Definition create_or_reuse (s : st) (g : name) (G : func) (tys : list ty) (es : list exp) : option (st * name) :=
    match try_reuse s g tys es with
    | Some n => Some (add_templ g s, n)
    | None =>
        tys' ← spec_types (params G) tys;
        let r := create_spec s g G tys' es in Some (add_templ g r.1, r.2)
    end.

  (** The outcome of the pass: done; an error; not finished with the steps given. *)
  Inductive pres := POk (s : st) | PErr | POut.
  Definition pbind (r : pres) (k : st → pres) : pres := match r with POk s => k s | PErr => PErr | POut => POut end.

  Section step.
    Context (rec : name → st → pres).
    (** 345-362: one call of function n. *)
    Definition step_call (n : name) (ke : nat * list exp) (s : st) : pres :=
      match fns s !! n with
      | None => PErr
      | Some F =>
          match sites F !! ke.1 with
          | None => PErr
          | Some (g, rt) =>
              match fns s !! g with
              | None => PErr
              | Some G =>
                  if is_template G || existsb is_const ke.2 then
                    match create_or_reuse s g G (typ (params F) (sites F) <$> ke.2) ke.2 with
                    | None => PErr
                    | Some (s1, n1) =>
                        match fns s1 !! n1 with
                        | None => PErr
                        | Some N =>
                            let S' := <[ke.1 := (n1, res N)]> (sites F) in
                            (* 149-159: fixResultTypes; the types of the function are inferred anew only if there was a change. *)
                            let F' := if decide (rt = res N) then Func (params F) (res F) S' (body F)
                                      else Func (params F) (typ (params F) S' (body F)) S' (body F) in
                            pbind (rec n1 (set_fn n F' s1)) (fun s2 => POk (add_called n1 s2))
                        end
                    end
                  else pbind (rec g s) (fun s1 => POk (add_called g s1))
              end
          end
      end.
    (** 365-404: one map of function n. *)
    Definition step_map (n : name) (ke : nat * exp) (s : st) : pres :=
      match fns s !! n with
      | None => PErr
      | Some F =>
          match sites F !! ke.1 with
          | None => PErr
          | Some (g, rt) =>
              match fns s !! g with
              | None => PErr
              | Some G =>
                  if is_template G then
                    match typ (params F) (sites F) ke.2 with
                    | Mat v p =>
                        match create_or_reuse s g G [match v with Some w => Sca w | None => Unk end] [] with
                        | None => PErr
                        | Some (s1, n1) =>
                            match fns s1 !! n1 with
                            | None => PErr
                            | Some N =>
                                let rt' := Mat (match res N with Sca w => Some w | _ => None end) p in
                                let S' := <[ke.1 := (n1, rt')]> (sites F) in
                                let F' := if decide (rt = rt') then Func (params F) (res F) S' (body F)
                                          else Func (params F) (typ (params F) S' (body F)) S' (body F) in
                                pbind (rec n1 (set_fn n F' s1)) (fun s2 => POk (add_called n1 s2))
                            end
                        end
                    | _ => PErr
                    end
                  else pbind (rec g s) (fun s1 => POk (add_called g s1))
              end
          end
      end.
  End step.
  Fixpoint pfold {X} (f : X → st → pres) (l : list X) (s : st) : pres :=
    match l with [] => POk s | x :: l' => pbind (f x s) (pfold f l') end.

  (** 337-405: specializeCallsInFunction; [gas] bounds the depth of the recursion of the pass. *)
  Fixpoint spec_fn (gas : nat) (n : name) (s : st) : pres :=
    match gas with
    | 0 => POut
    | S gas' =>
        if decide (n ∈ visited s) then POk s
        else
          match fns s !! n with
          | None => PErr
          | Some F =>
              pbind (pfold (step_call (spec_fn gas') n) (calls_of (body F)) (add_visited n s))
                    (fun s1 => pfold (step_map (spec_fn gas') n) (maps_of (body F)) s1)
          end
    end.

  (** 438-466: runOnOperation: the entry functions in the order of an unordered map; then the removal of functions. *)
  Definition run_entry (gas : nat) (n : name) (s : st) : pres :=
    match fns s !! n with
    | None => PErr
    | Some F =>
        if is_template F || bool_decide (n ∈ visited s) || bool_decide (n ∈ templs s) then POk s
        else spec_fn gas n (set_fn n (infer_fn F) s)
    end.
  Definition init (M : gmap name func) : st := St M [] [] [] [] 1.
  Definition run_pass (gas : nat) (order : list name) (M : gmap name func) : pres := pfold (run_entry gas) order (init M).
  Definition keep (s : st) (n : name) : bool := bool_decide (n = main) || (bool_decide (n ∈ called s) && negb (bool_decide (n ∈ templs s))).
  Definition result (s : st) : gmap name func := filter (fun nF => keep s nF.1 = true) (fns s).
End udf.
Arguments exp : clear implicits.
Arguments func : clear implicits.
Arguments st : clear implicits.
Arguments pres : clear implicits.
