(** Model of the Python API DaphneLib: src/api/python/daphne (operator/operation_node.py, operator/nodes/*.py, script_building/script.py,
    nested_script.py). Python programs build a graph of operations; compute() generates a DaphneDSL script from it and runs the script.
    Nodes are numbers, the graph is a list of nodes. Scripts are lists of statements (not texts), variables are structured names; [render]
    gives their text. The type of results, the operations and literals are abstract. Not modelled: transfer of data between Python
    and the runtime, output of print and write, types, checks of argument counts. *)
From stdpp Require Import base numbers list strings.
From Coq Require Import Ascii ZArith.
From Verif Require Import CppBase CsvModel.

(** * Scripts *)
(** A variable: the prefix and level of a nested script, the number, and the position of a returned value.
    script.py 177-180 (V0, V1, ...), nested_script.py 58-61 (L1_V0, C1_V0, ...), multi_return.py 78 (V0_0, ...) *)
Record var := mkV { v_pre : option (nat * nat); v_num : nat; v_idx : option nat }.
Global Instance var_eq_dec : EqDecision var.
Proof. solve_decision. Defined.
Definition dec (k : nat) : list byte := print_dec (Z.of_nat k).
Definition US : byte := 95.
Definition CV : byte := 86.
Definition render (x : var) : list byte :=
  match v_pre x with None => [] | Some (p, l) => p :: dec l ++ [US] end ++ CV :: dec (v_num x) ++ match v_idx x with None => [] | Some i => US :: dec i end.

(** A reference to a value in a script: a variable or a literal. *)
Inductive ref := RV (x : var) | RL (t : string).
Inductive stmt :=
| SAssign (x : var) (op : string) (args : list ref)            (* x = op(args);  and the infix, bracket and ?: forms *)
| SCopy (x : var) (a : ref)                                    (* x = a; *)
| SMulti (xs : list var) (f : string) (args : list ref)        (* x, y = f(args); *)
| SLeft (x : var) (idx : list ref) (a : ref)                   (* x[idx] = a; *)
| SIf (c : ref) (th el : list stmt)
| SFor (i : var) (a b : ref) (st : option ref) (body : list stmt)
| SWhile (c : ref) (body : list stmt)
| SDoWhile (body : list stmt) (c : ref).

(** How DaphneDSL executes scripts. Blocks are scopes: variables that exist outside are updated, others disappear
    (DaphneDSLVisitor.cpp 563-670, 754-860, ScopedSymbolTable.h popScope). [x\[idx\] = a] gives [x] a new value (DaphneDSLVisitor.cpp
    handleAssignmentPart). The variable of a for-loop is set in the scope of the body, like an assignment (DaphneDSLVisitor.cpp 804-809).
    Loops with conditions run at most [bound] times here. *)
Section exec.
Context {V : Type} (lit : string -> V) (app : string -> list V -> V) (appm : string -> nat -> list V -> V) (upd : V -> V -> list V -> V)
  (truth : V -> bool) (range : V -> V -> option V -> list V) (bound : nat).
Definition env := var -> option V.
Definition evalr (e : env) (r : ref) : option V := match r with RV x => e x | RL t => Some (lit t) end.
Definition evals (e : env) (rs : list ref) : option (list V) := mapM (evalr e) rs.
Definition setv (e : env) (x : var) (v : V) : env := fun y => if decide (y = x) then Some v else e y.
Fixpoint setm (e : env) (xs : list var) (f : string) (i : nat) (vs : list V) : env :=
  match xs with [] => e | x :: xs' => setm (setv e x (appm f i vs)) xs' f (S i) vs end.
Definition leave (e e' : env) : env := fun y => match e y with Some _ => e' y | None => None end.
Definition foldo {A B} (f : A -> B -> option A) : A -> list B -> option A :=
  fix go (a : A) (bs : list B) : option A := match bs with [] => Some a | b :: bs' => a' ← f a b; go a' bs' end.
Fixpoint whileo {A} (n : nat) (c : A -> option bool) (f : A -> option A) (a : A) : option A :=
  b ← c a;
  if b : bool then match n with 0 => None | S n' => a' ← f a; whileo n' c f a' end else Some a.
Fixpoint exec (s : stmt) (e : env) {struct s} : option env :=
  match s with
  | SAssign x op args => vs ← evals e args; Some (setv e x (app op vs))
  | SCopy x a => v ← evalr e a; Some (setv e x v)
  | SMulti xs f args => vs ← evals e args; Some (setm e xs f 0 vs)
  | SLeft x idx a => b ← e x; vs ← evals e idx; v ← evalr e a; Some (setv e x (upd b v vs))
  | SIf c th el => v ← evalr e c; if truth v then leave e <$> foldo (fun e s => exec s e) e th
                                  else leave e <$> foldo (fun e s => exec s e) e el
  | SFor i a b st body =>
      va ← evalr e a; vb ← evalr e b; vst ← (match st with None => Some None | Some r => Some <$> evalr e r end);
      foldo (fun e v => leave e <$> foldo (fun e s => exec s e) (setv e i v) body) e (range va vb vst)
  | SWhile c body =>
      whileo bound (fun e => truth <$> evalr e c) (fun e => leave e <$> foldo (fun e s => exec s e) e body) e
  | SDoWhile body c =>
      let run := (fun e => leave e <$> foldo (fun e s => exec s e) e body) in
      e' ← run e; whileo bound (fun e => truth <$> evalr e c) run e'
  end.
Definition execs (e : env) (b : list stmt) : option env := foldo (fun e s => exec s e) e b.
Definition emptyenv : env := fun _ => None.
End exec.

(** * The graph *)
(** An input of a node: another node or a Python value, which is written into the script. *)
Inductive arg := N (n : nat) | Lit (t : string).
Global Instance arg_eq_dec : EqDecision arg.
Proof. solve_decision. Defined.
Inductive kind :=
| KOp (op : string)                              (* an operation with one result *)
| KCopy                                          (* an output of a control structure: Matrix(..., copy=True) *)
| KLeft                                          (* the state of a matrix after X[idx] = value: inputs X, value, idx *)
| KMulti (f : string) (outs : list nat)          (* a call of a user-defined function; its outputs are nodes *)
| KFor (nc : nat) (outs : list arg)              (* [nc] nodes are updated; [outs] is what the callback returns *)
| KCond (nc : nat) (th : list arg) (el : option (list arg))
| KWhile (nc : nat) (c : arg) (outs : list arg)
| KDoWhile (nc : nat) (c : arg) (outs : list arg).
(** Unnamed inputs (for control structures: the nodes that are updated and then the outer nodes their callbacks use), named inputs, and the
    source node. The nodes that callbacks create are in the graph, too. *)
Record node := mkN { n_kind : kind; n_args : list arg; n_named : list arg; n_src : option nat }.
Definition graph := list node.

(** * Generation *)
(** The names of the nodes, the nested_level of control structures, and of the current script the variable counter and the code. *)
Record gst := mkG { g_name : nat -> option var; g_lvl : nat -> nat; g_ctr : nat; g_code : list stmt }.
Definition upn {A} (f : nat -> A) (n : nat) (a : A) : nat -> A := fun m => if decide (m = n) then a else f m.
Fixpoint gen_list (g : arg -> gst -> option (ref * gst)) (l : list arg) (st : gst) : option (list ref * gst) :=
  match l with
  | [] => Some ([], st)
  | a :: l' => p ← g a st; q ← gen_list g l' (snd p); Some (fst p :: fst q, snd q)
  end.
(** multi_return.py 77-80 *)
Fixpoint name_outs (names : nat -> option var) (x : var) (i : nat) (outs : list nat) : nat -> option var :=
  match outs with [] => names | o :: outs' => name_outs (upn names o (Some (mkV (v_pre x) (v_num x) (Some i)))) x (S i) outs' end.
(** for_loop.py 121-122, cond.py 139-140: [us] are the names of the unnamed inputs *)
Fixpoint assigns (us : list ref) (rs : list ref) : option (list stmt) :=
  match rs with
  | [] => Some []
  | r :: rs' => match us with RV x :: us' => c ← assigns us' rs'; Some (SCopy x r :: c) | _ => None end
  end.
Section gen.
Context (G : graph).
Definition CL : nat := 76.
Definition CC : nat := 67.
(** A nested script (nested_script.py 43-61) with its own counter and code; the names are those of the nodes. *)
Definition nested (g : arg -> gst -> option (ref * gst)) (l : list arg) (st : gst) : option (list ref * list stmt * gst) :=
  p ← gen_list g l (mkG (g_name st) (g_lvl st) 0 []);
  let '(rs, st') := p in Some (rs, g_code st', mkG (g_name st') (g_lvl st') (g_ctr st) (g_code st)).
(** code_line of the nodes; [dfs] is the depth-first search of a script with the given prefix and level.
    operation_node.py 254-278, matrix.py 59-63, multi_return.py 61-82, for_loop.py 92-131, cond.py 111-166, while_loop.py 97-137, do_while_loop.py 96-139 *)
Definition code_line (dfs : option (nat * nat) -> arg -> gst -> option (ref * gst)) (n : nat) (nd : node) (x : var) (us ks : list ref) (st : gst) : option (list stmt * gst) :=
  let lvl := g_lvl st n in
  match n_kind nd with
  | KOp op => Some ([SAssign x op (us ++ ks)], st)
  | KCopy => match us with u :: _ => Some ([SCopy x u], st) | [] => None end
  | KLeft => match us with RV b :: w :: idx => Some ([SLeft b idx w; SCopy x (RV b)], st) | _ => None end
  | KMulti f outs => Some ([SMulti ((fun i => mkV (v_pre x) (v_num x) (Some i)) <$> seq 0 (length outs)) f (us ++ ks)], mkG (name_outs (g_name st) x 0 outs) (g_lvl st) (g_ctr st) (g_code st))
  | KFor _ outs =>
      p ← nested (dfs (Some (CL, S lvl))) outs st;
      let '(rs, body, st') := p in
      asg ← assigns us rs;
      match ks with
      | [a; b; s; RV i] => Some ([SFor i a b (match s with RL t => if decide (t = "None"%string) then None else Some s | _ => Some s end) (body ++ asg)], st')
      | _ => None
      end
  | KCond _ th el =>
      p ← nested (dfs (Some (CL, S lvl))) th st;
      let '(rs, body, st1) := p in
      asg ← assigns us rs;
      match ks with
      | [c] =>
          match el with
          | None => Some ([SIf c (body ++ asg) []], st1)
          | Some el =>
              q ← nested (dfs (Some (CL, S lvl))) el st1;
              let '(rs2, body2, st2) := q in
              asg2 ← assigns us rs2;
              Some ([SIf c (body ++ asg) (body2 ++ asg2)], st2)
          end
      | _ => None
      end
  | KWhile _ c outs =>
      p ← nested (dfs (Some (CL, lvl))) outs st;
      let '(rs, body, st1) := p in
      asg ← assigns us rs;
      q ← nested (dfs (Some (CC, S lvl))) [c] st1;
      let '(cs, cbody, st2) := q in
      match cs with [r] => Some (cbody ++ [SWhile r (body ++ asg ++ cbody)], st2) | _ => None end
  | KDoWhile _ c outs =>
      p ← nested (dfs (Some (CL, lvl))) outs st;
      let '(rs, body, st1) := p in
      asg ← assigns us rs;
      q ← nested (dfs (Some (CC, S lvl))) [c] st1;
      let '(cs, cbody, st2) := q in
      match cs with [r] => Some (cbody ++ [SDoWhile (body ++ asg ++ cbody) r], st2) | _ => None end
  end.
(** script.py 117-153 and nested_script.py 52-55; [pre] is the prefix of the script, [fuel] bounds the depth *)
Fixpoint dfs (fuel : nat) (pre : option (nat * nat)) (a : arg) (st : gst) : option (ref * gst) :=
  match a with
  | Lit t => Some (RL t, st)
  | N n =>
      match fuel with
      | 0 => None
      | S f =>
          nd ← G !! n;
          let st := match pre, n_src nd with
                    | Some _, Some m => mkG (g_name st) (upn (g_lvl st) m (S (g_lvl st m))) (g_ctr st) (g_code st)
                    | _, _ => st
                    end in
          match g_name st n with
          | Some x => Some (RV x, st)
          | None =>
              st ← (match n_src nd with Some m => snd <$> dfs f pre (N m) st | None => Some st end);
              p ← gen_list (dfs f pre) (n_args nd) st;
              let '(us, st) := p in
              q ← gen_list (dfs f pre) (n_named nd) st;
              let '(ks, st) := q in
              match g_name st n with
              | Some x => Some (RV x, st)
              | None =>
                  let x := mkV pre (g_ctr st) None in
                  let st := mkG (upn (g_name st) n (Some x)) (g_lvl st) (S (g_ctr st)) (g_code st) in
                  c ← code_line (dfs f) n nd x us ks st;
                  let '(code, st) := c in
                  Some (RV x, mkG (g_name st) (g_lvl st) (g_ctr st) (g_code st ++ code))
              end
          end
      end
  end.
(** script.py 160-175: after the execution the names are cleared *)
Fixpoint clear_list (g : arg -> (nat -> option var) -> option (nat -> option var)) (l : list arg) (names : nat -> option var) : option (nat -> option var) :=
  match l with [] => Some names | a :: l' => names' ← g a names; clear_list g l' names' end.
Fixpoint clear_outs (names : nat -> option var) (outs : list nat) : nat -> option var :=
  match outs with [] => names | o :: outs' => clear_outs (upn names o None) outs' end.
Fixpoint clear (fuel : nat) (a : arg) (names : nat -> option var) : option (nat -> option var) :=
  match a with
  | Lit _ => Some names
  | N n =>
      match fuel with
      | 0 => None
      | S f =>
          match names n with
          | None => Some names
          | Some _ =>
              nd ← G !! n;
              names ← clear_list (clear f) (n_args nd) (upn names n None);
              names ← (match n_src nd with
                       | None => Some names
                       | Some m => names ← clear f (N m) names; md ← G !! m; Some (match n_kind md with KMulti _ outs => clear_outs names outs | _ => names end)
                       end);
              clear_list (clear f) (n_named nd) names
          end
      end
  end.
(** operation_node.py 110-124: the script for the node [root] and the variable with its value *)
Definition noname : nat -> option var := fun _ => None.
Definition compute_script (fuel root : nat) (names : nat -> option var) : option (ref * gst) := dfs fuel None (N root) (mkG names (fun _ => 0) 0 []).
End gen.

(** * Assignment to parts of a matrix *)
(** matrix.py 183-220 (__setitem__) and operation_node.py 88-90: each consumer of the node gets the copy [new] instead. list.index compares by
    identity or ==; the == of matrices makes a node (which is always true) and adds it to the consumers of its operands. [k] is the position of the
    iteration over the list of consumers, which grows meanwhile; the nodes made by == are numbered from [fresh]. If the first input is a Python value,
    the == of the matrix is used, with the matrix on the left. *)
Record pynode := mkP { p_args : list arg }.
Fixpoint redirect (fuel self new : nat) (H : nat -> pynode) (cons : list nat) (k fresh : nat) : option ((nat -> pynode) * list nat) :=
  match fuel with
  | 0 => None
  | S f =>
      match cons !! k with
      | None => Some (H, cons)
      | Some c =>
          match p_args (H c) with
          | [] => redirect f self new H cons (S k) fresh
          | a :: rest =>
              let H' := upn H c (mkP (N new :: rest)) in
              if decide (a = N self) then redirect f self new H' cons (S k) fresh
              else redirect f self new (upn H' fresh (mkP (match a with N _ => [a; N self] | Lit _ => [N self; a] end))) (cons ++ [fresh]) (S k) (S fresh)
          end
      end
  end.
