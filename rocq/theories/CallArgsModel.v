(** Model of function calls in DaphneDSL: positional and keyword arguments, and the
    choice among user-defined functions of the same name and built-in functions. *)
From stdpp Require Import base numbers list.
From Verif Require Import CppBase CsvModel.

Definition name := list byte.
(** Types as known to the parser; value types are numbered.  UMatrix None is a matrix
    of unknown value type, UOther any other type (such as frames).  The parser creates
    no matrix types with further properties. *)
Inductive uty := UUnknown | UScalar (v : nat) | UMatrix (v : option nat) | UOther (n : nat).
Global Instance uty_eq_dec : EqDecision uty.
Proof. solve_decision. Defined.
(** A value (an SSA value, by number) with its type. *)
Definition val : Type := nat * uty.
(** src/parser/daphnedsl/DaphneDSLVisitor.h, CallArgInfo. *)
Record arg {V : Type} := mkArg { a_name : option name; a_val : V }.
Arguments arg : clear implicits.
Arguments mkArg {V}.

(** src/parser/daphnedsl/DaphneDSLVisitor.cpp, lines 249-347 (orderCallArguments). *)
Section order.
Context {V : Type} (params : list name).
(** Lines 300-306: the index of a parameter. *)
Fixpoint index_of (ps : list name) (n : name) : option nat :=
  match ps with [] => None | p :: ps => if decide (p = n) then Some 0 else S <$> index_of ps n end.
(** Lines 284-320. *)
Fixpoint place (slots : list (option V)) (pidx : nat) (seen : bool) (args : list (arg V)) : outcome (list (option V)) :=
  match args with
  | [] => Ok slots
  | a :: args =>
      match a_name a with
      | None =>
          if seen then Throw
          else if decide (length params <= pidx) then Throw
          else let* slots := wr slots pidx (Some (a_val a)) in place slots (S pidx) seen args
      | Some n =>
          match index_of params n with
          | None => Throw
          | Some i =>
              let* s := rd slots i in
              match s with
              | Some _ => Throw
              | None => let* slots := wr slots i (Some (a_val a)) in place slots pidx true args
              end
          end
      end
  end.
(** Lines 322-345. *)
Fixpoint last_provided (slots : list (option V)) (i : nat) (last : option nat) : option nat :=
  match slots with
  | [] => last
  | Some _ :: slots => last_provided slots (S i) (Some i)
  | None :: slots => last_provided slots (S i) last
  end.
Fixpoint gather (slots : list (option V)) : outcome (list V) :=
  match slots with
  | [] => Ok []
  | Some v :: slots => let* r := gather slots in Ok (v :: r)
  | None :: _ => Throw
  end.
(** The number of required parameters only changes the message of the error. *)
Definition order_args (args : list (arg V)) : outcome (list V) :=
  match params with
  | [] => if decide (Forall (fun a => a_name a = None) args) then Ok (map a_val args) else Throw
  | _ :: _ =>
      if decide (length params < length args) then Throw
      else let* slots := place (replicate (length params) None) 0 false args in
           match last_provided slots 0 None with
           | None => Ok []
           | Some l => gather (take (S l) slots)
           end
  end.
End order.

(** A definition of a user-defined function (lines 2254-2354): its name, parameters,
    number, and whether its parameter names are stored already: not while its own
    body is parsed. *)
Record udf := mkUdf { u_name : name; u_params : list (name * uty); u_id : nat; u_stored : bool }.
Global Instance udf_eq_dec : EqDecision udf.
Proof. solve_decision. Defined.
(** functionsSymbolMap: a std::multimap; equal keys are in the order of insertion. *)
Definition overloads (us : list udf) (f : name) : list udf := filter (fun u => u_name u = f) us.

(** Lines 217-237 (getUdfParamNames). *)
Fixpoint udf_names (us : list udf) (n : nat) (acc : option (list name)) : outcome (option (list name)) :=
  match us with
  | [] => Ok acc
  | u :: us =>
      if decide (length (u_params u) <> n) then udf_names us n acc
      else if u_stored u
           then match acc with
                | None => udf_names us n (Some (map fst (u_params u)))
                | Some ns => if decide (ns <> map fst (u_params u)) then Throw else udf_names us n acc
                end
           else udf_names us n acc
  end.

(** Lines 938-956 (argAndUDFParamCompatible). *)
Definition compatible (a p : uty) : bool :=
  bool_decide (p = a) || bool_decide (a = UUnknown) || bool_decide (p = UUnknown) ||
  match a, p with UMatrix None, UMatrix _ | UMatrix _, UMatrix None => true | _, _ => false end.
Fixpoint compatible_all (args : list val) (ps : list (name * uty)) : bool :=
  match args, ps with
  | [], [] => true
  | a :: args, p :: ps => compatible (snd a) (snd p) && compatible_all args ps
  | _, _ => false
  end.
(** Lines 958-1020 (findMatchingUDF); the caller makes sure that there is some
    function of the name. *)
Fixpoint find_udf (us : list udf) (args : list val) : option udf :=
  match us with [] => None | u :: us => if compatible_all args (u_params u) then Some u else find_udf us args end.

(** What is called, with which arguments. *)
Inductive callee := CUdf (u : udf) | CBuiltin (f : name).
(** Lines 1107-1164 (visitCallExpr), without kernel hints.  [info] gives the
    parameters of built-in functions (src/parser/daphnedsl/DaphneDSLBuiltins.cpp,
    lines 213-225); checks by the built-in functions themselves are not modelled. *)
Definition call_expr (info : name -> option (list name)) (us : list udf) (f : name) (args : list (arg val)) : outcome (callee * list val) :=
  match overloads us f with
  | [] =>
      match info f with
      | Some ps => let* vs := order_args ps args in Ok (CBuiltin f, vs)
      | None => if decide (Exists (fun a => a_name a <> None) args) then Throw
                else let* vs := order_args [] args in Ok (CBuiltin f, vs)
      end
  | os =>
      let* names := udf_names os (length args) None in
      let* vs := match names with
                 | Some ps => order_args ps args
                 | None => if decide (Exists (fun a => a_name a <> None) args) then Throw else Ok (map a_val args)
                 end in
      match find_udf os vs with Some u => Ok (CUdf u, vs) | None => Throw end
  end.

(** Lines 1056-1105 (handleMapOpCall): the expressions of the arguments are not
    evaluated, except the first in the order of the call.  An expression is its
    text, and [eval] its value or an error; a value that was not computed is null. *)
Definition ARG : name := [97; 114; 103].
Definition UDF : name := [117; 100; 102].
Definition map_call (eval : name -> outcome val) (us : list udf) (args : list (arg name)) : outcome (udf * val) :=
  let* evald := match args with
                | [] => Ok []
                | a :: args => let* v := eval (a_val a) in
                               Ok (mkArg (a_name a) (a_val a, Some v) :: map (fun b => mkArg (a_name b) (a_val b, None)) args)
                end in
  let* ordered := order_args [ARG; UDF] evald in
  match ordered with
  | [(_, x); (f, _)] =>
      match x with
      | None => UB
      | Some (v, UMatrix e) =>
          let t := match e with Some e => UScalar e | None => UUnknown end in
          match find_udf (overloads us f) [(v, t)] with Some u => Ok (u, (v, UMatrix e)) | None => Throw end
      | Some _ => Throw
      end
  | _ => Throw
  end.
