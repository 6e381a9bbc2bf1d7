(** The SQL queries accepted by DAPHNE (src/parser/sql/SQLGrammar.g4) as syntax trees, and the values they compute with.

    Simplifications: lexer and parser are not modelled; keywords inside of expressions are printed in upper case. *)
From stdpp Require Import base numbers list strings.
From Coq Require Import Ascii.
Local Open Scope string_scope.

(** SQLGrammar.g4 87-103 and CMP_OP (190-191): the operators; [BBang] is the operator != *)
Inductive binop := BMul | BDiv | BAdd | BSub | BEq | BNe | BBang | BLt | BLe | BGt | BGe | BAnd | BOr.
(** the aggregation functions, SQLVisitor.cpp 237-262 *)
Inductive aggfn := Count | Sum | Min | Max | Avg.

(** What a query computes with: arbitrary values, operators, truth values (of a filter column), order and aggregation functions. *)
Record ops (V : Type) := mkOps {
  bop : binop -> V -> V -> V;
  truthy : V -> bool;
  vlt : V -> V -> bool;
  aggf : aggfn -> list V -> V }.
Arguments mkOps {V}. Arguments bop {V}. Arguments truthy {V}. Arguments vlt {V}. Arguments aggf {V}.

(** generalExpr and generalExpr2, SQLGrammar.g4 87-103; a literal is given with its text *)
Inductive expr (V : Type) :=
  | ELit (text : string) (v : V)
  | EStar
  | EIdent (frame : option string) (column : string)
  | EParen (e : expr V)
  | EAgg (func : string) (e : expr V)
  | EBin (op : binop) (a b : expr V)
  | EBetween (obj lo hi : expr V).
Arguments ELit {V}. Arguments EStar {V}. Arguments EIdent {V}. Arguments EParen {V}. Arguments EAgg {V}. Arguments EBin {V}. Arguments EBetween {V}.

(** the text of an operator *)
Definition op_text (op : binop) : string :=
  match op with
  | BMul => "*" | BDiv => "/" | BAdd => "+" | BSub => "-" | BEq => "=" | BNe => "<>" | BBang => "!=" | BLt => "<" | BLe => "<=" | BGt => ">" | BGe => ">="
  | BAnd => "AND" | BOr => "OR" end.
(** selectIdent, SQLGrammar.g4 108-110 *)
Definition ident_text (frame : option string) (column : string) : string :=
  match frame with Some f => f ++ "." ++ column | None => column end.
(** getText() of an expression: its tokens without white space *)
Fixpoint text {V} (e : expr V) : string :=
  match e with
  | ELit t _ => t
  | EStar => "*"
  | EIdent f c => ident_text f c
  | EParen e => "(" ++ text e ++ ")"
  | EAgg fn e => fn ++ "(" ++ text e ++ ")"
  | EBin op a b => text a ++ op_text op ++ text b
  | EBetween o l h => text o ++ "BETWEEN" ++ text l ++ "AND" ++ text h
  end.

(** selectExpr (49-50): an expression and its name, if given *)
Definition item (V : Type) : Type := expr V * option string.
(** tableReference (105-106): the name of a table and its alias, if given *)
Definition tref : Type := string * option string.
Definition ident : Type := option string * string.
(** innerJoin (63-68): the first comparison and further ones, whose operator may be missing *)
Record join := mkJoin { j_ref : tref; j_first : ident * binop * ident; j_more : list (ident * option binop * ident) }.
(** select (35-41): orderings are identifiers with "ascending?" (80-85) *)
Record query (V : Type) := mkQuery {
  q_distinct : bool;
  q_item : item V; q_items : list (item V);
  q_from : tref; q_froms : list tref; q_joins : list join;
  q_where : option (expr V);
  q_group : option (ident * list ident * option (expr V));
  q_order : option (list (ident * bool)) }.
Arguments mkQuery {V}. Arguments q_distinct {V}. Arguments q_item {V}. Arguments q_items {V}. Arguments q_from {V}. Arguments q_froms {V}.
Arguments q_joins {V}. Arguments q_where {V}. Arguments q_group {V}. Arguments q_order {V}.

(** Tables: a label per column, and the rows. *)
Record frame (V : Type) := mkFrame { f_labels : list string; f_rows : list (list V) }.
Arguments mkFrame {V}. Arguments f_labels {V}. Arguments f_rows {V}.

(** * Names *)
(** tolower, SQLVisitor.cpp 58-61 *)
Definition lower_char (c : ascii) : ascii := if ((65 <=? nat_of_ascii c) && (nat_of_ascii c <=? 90))%nat then ascii_of_nat (nat_of_ascii c + 32)%nat else c.
Fixpoint lower (s : string) : string := match s with EmptyString => EmptyString | String c s => String (lower_char c) (lower s) end.
(** getGroupEnum, SQLVisitor.cpp 237-262: the function meant by a name *)
Definition fn_of (f : string) : option aggfn :=
  let f := lower f in
  if string_dec f "count" then Some Count else if string_dec f "sum" then Some Sum else if string_dec f "min" then Some Min
  else if string_dec f "max" then Some Max else if string_dec f "avg" then Some Avg else None.
(** The label of a column may have a prefix that ends with '.': the text before the first '.', and the text behind it; without a '.' both are the whole text, because substr(npos + 1) is substr(0) *)
Fixpoint before_dot (s : string) : string :=
  match s with EmptyString => EmptyString | String c s => if ascii_dec c "." then EmptyString else String c (before_dot s) end.
Fixpoint find_dot (s : string) : option string :=
  match s with EmptyString => None | String c s => if ascii_dec c "." then Some s else find_dot s end.
Definition behind_dot (s : string) : string := match find_dot s with Some t => t | None => s end.
(** the first entry for a name *)
Fixpoint assoc {B} (n : string) (l : list (string * B)) : option B := match l with [] => None | (m, b) :: l => if string_dec m n then Some b else assoc n l end.
