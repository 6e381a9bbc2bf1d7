(** Model of literals in DaphneDSL (integers, floating-point numbers, booleans,
    strings, matrices, frames) and of script arguments. *)
From stdpp Require Import base numbers sorting list.
From Coq Require Import Lia.
From Verif Require Import CppBase PromoteModel CsvModel.
Open Scope nat_scope.

(** * Tokens *)
(** src/parser/daphnedsl/DaphneDSLGrammar.g4: DIGIT_SEP. *)
Definition is_sep (c : byte) : bool := (c =? 95) || (c =? 39).
(** DaphneDSLGrammar.g4: (DIGIT_SEP? DIGIT)*, as many characters as possible; returns the
    characters taken and the rest. *)
Fixpoint scan (s : list byte) : list byte * list byte :=
  match s with
  | [] => ([], [])
  | d :: r =>
      if is_digit d then let '(a, b) := scan r in (d :: a, b)
      else if is_sep d then
        match r with
        | e :: r' => if is_digit e then let '(a, b) := scan r' in (d :: e :: a, b) else ([], s)
        | [] => ([], s)
        end
      else ([], s)
  end.
(** DaphneDSLGrammar.g4: '0' | NON_ZERO_DIGIT (DIGIT_SEP? DIGIT)*. *)
Definition scan_int (s : list byte) : option (list byte * list byte) :=
  match s with
  | d :: r => if d =? 48 then Some ([d], r) else if is_digit d then let '(a, b) := scan r in Some (d :: a, b) else None
  | [] => None
  end.
Definition Sl : list byte := [108].
Definition Su : list byte := [117].
Definition Sull : list byte := [117; 108; 108].
Definition Sz : list byte := [122].
(** DaphneDSLGrammar.g4: INT_LITERAL, for a whole text. *)
Definition is_int (s : list byte) : bool :=
  match scan_int s with
  | Some (_, r) => bool_decide (r = [] \/ r = Sl \/ r = Su \/ r = Sull \/ r = Sz)
  | None => false
  end.
(** The longest prefix of digits. *)
Fixpoint digits (s : list byte) : list byte * list byte :=
  match s with
  | d :: r => if is_digit d then let '(a, b) := digits r in (d :: a, b) else ([], s)
  | [] => ([], [])
  end.
(** DaphneDSLGrammar.g4: '.' DIGIT+ (DIGIT_SEP? DIGIT)*; [None] if it is not there. *)
Definition scan_frac (s : list byte) : option (list byte) :=
  match s with
  | 46 :: d :: r => if is_digit d then Some (snd (scan r)) else None
  | _ => None
  end.
(** DaphneDSLGrammar.g4: [eE] ('-'|'+')? ('0' | NON_ZERO_DIGIT DIGIT* ). *)
Definition scan_exp (s : list byte) : option (list byte) :=
  match s with
  | e :: r =>
      if (e =? 101) || (e =? 69) then
        match (match r with c :: r' => if (c =? 45) || (c =? 43) then r' else r | [] => r end) with
        | d :: r' => if d =? 48 then Some r' else if is_digit d then Some (snd (digits r')) else None
        | [] => None
        end
      else None
  | [] => None
  end.
Definition NAN : list byte := [110; 97; 110].
Definition NANF : list byte := [110; 97; 110; 102].
Definition INF : list byte := [105; 110; 102].
Definition INFF : list byte := [105; 110; 102; 102].
(** DaphneDSLGrammar.g4: FLOAT_LITERAL, for a whole text. *)
Definition is_float_text (s : list byte) : bool :=
  bool_decide (s = NAN \/ s = NANF \/ s = INF \/ s = INFF) ||
  match scan_int s with
  | Some (_, r) =>
      let '(some_f, r1) := match scan_frac r with Some r1 => (true, r1) | None => (false, r) end in
      let '(some_e, r2) := match scan_exp r1 with Some r2 => (true, r2) | None => (false, r1) end in
      (some_f || some_e) && bool_decide (r2 = [] \/ r2 = [102])
  | None => false
  end.
(** DaphneDSLGrammar.g4: ESCAPE_SEQ. *)
Definition BACK : byte := 92.
Definition QUOT : byte := 34.
Definition is_escape (c : byte) : bool := bool_decide (c ∈ [98; 102; 110; 114; 116; 34; 92]).
(** DaphneDSLGrammar.g4: the part of STRING_LITERAL after the first quotation mark. *)
Fixpoint is_str_rest (s : list byte) : bool :=
  match s with
  | c :: r =>
      if c =? QUOT then bool_decide (r = [])
      else if c =? BACK then match r with e :: r' => is_escape e && is_str_rest r' | [] => false end
      else is_str_rest r
  | [] => false
  end.
Definition is_str (s : list byte) : bool := match s with c :: r => (c =? QUOT) && is_str_rest r | [] => false end.
Definition TRUE : list byte := [116; 114; 117; 101].
Definition FALSE : list byte := [102; 97; 108; 115; 101].

(** * Constants *)
(** The operands of daphne.constant that literals give rise to.  A floating-point
    number is given by its type and the decimal number m * 10^e it is rounded from;
    rounding itself (strtod, strtof) is not modelled. *)
Inductive const :=
| CInt (t : vt) (z : Z)
| CFlt (t : vt) (neg : bool) (m e : Z)
| CInf (t : vt) (neg : bool)
| CNan (t : vt)
| CBool (b : bool)
| CStr (s : list byte).

(** DaphneDSLVisitor.cpp, lines 1938-1939 (removing digit separators). *)
Definition strip (s : list byte) : list byte := filter (fun c => is_sep c = false) s.
(** std::stol, std::stoll, std::stoul and std::stoull for a text that starts with a digit:
    digits up to the first other character; an exception beyond [max]. *)
Definition sto (max : Z) (s : list byte) : outcome Z :=
  match fst (digits s) with
  | [] => Throw
  | ds => let v := digits_val ds 0 in if decide (v <= max)%Z then Ok v else Throw
  end.
Definition max_long : Z := (2 ^ 63 - 1)%Z.
Definition max_ulong : Z := (2 ^ 64 - 1)%Z.
(** litStr.back(); the text is not empty. *)
Definition back (s : list byte) : byte := List.last s 0.
(** DaphneDSLVisitor.cpp, lines 1935-1968: integer literals.  size_t and unsigned long are
    uint64_t, long is int64_t. *)
Definition visit_int (text : list byte) : outcome const :=
  let s := strip text in
  if back s =? 117 then let* v := sto max_ulong s in Ok (CInt UI64 v)
  else if (2 <? length s) && bool_decide (drop (length s - 3) s = Sull) then let* v := sto max_ulong s in Ok (CInt UI64 v)
  else if back s =? 108 then let* v := sto max_long s in Ok (CInt SI64 v)
  else if back s =? 122 then let* v := sto max_long s in Ok (CInt UI64 v)
  else
    let* u := sto max_ulong s in
    if decide (u = max_long + 1)%Z then Ok (CInt SI64 (- 2 ^ 63))
    else let* v := sto max_long s in Ok (CInt SI64 v).

(** strtod for a text that starts with a digit: digits, possibly a point and digits,
    possibly an exponent; what follows is ignored.  Returns m and e for m * 10^e. *)
Definition strtod (s : list byte) : Z * Z :=
  let '(i, r) := digits s in
  let '(f, r1) := match r with 46 :: r' => digits r' | _ => ([], r) end in
  let ex :=
    match r1 with
    | c :: r2 =>
        if (c =? 101) || (c =? 69) then
          match r2 with
          | 45 :: r3 => (- digits_val (fst (digits r3)) 0)%Z
          | 43 :: r3 => digits_val (fst (digits r3)) 0
          | _ => digits_val (fst (digits r2)) 0
          end
        else 0%Z
    | [] => 0%Z
    end in
  (digits_val (i ++ f) 0, (ex - Z.of_nat (length f))%Z).
(** m * 10^e as a fraction. *)
Definition ratio (m e : Z) : Z * Z := if decide (0 <= e)%Z then ((m * 10 ^ e)%Z, 1%Z) else (m, (10 ^ (- e))%Z).
(** std::stof throws std::out_of_range if strtof reports an error: the number is rounded to
    infinity, or it is smaller than the normal floats and not a float itself.
    Simplification: a number just below the smallest normal float that is rounded to it
    counts as an error. *)
Definition stof_error (m e : Z) : bool :=
  let '(n, d) := ratio m e in
  bool_decide (((2 ^ 25 - 1) * 2 ^ 103 * d <= n) \/ (0 < n /\ n * 2 ^ 126 < d /\ (n * 2 ^ 149) mod d <> 0))%Z.
(** DaphneDSLVisitor.cpp, lines 1969-1995: floating-point literals.  The special values are all
    assigned to a double. *)
Definition visit_float (text : list byte) : outcome const :=
  if decide (text = NAN) then Ok (CNan F64)
  else if decide (text = NANF) then Ok (CNan F64)
  else if decide (text = INF) then Ok (CInf F64 false)
  else if decide (text = INFF) then Ok (CInf F64 false)
  else if back text =? 102 then
    let '(m, e) := strtod (strip text) in
    if stof_error m e then Throw else Ok (CFlt F32 false m e)
  else let '(m, e) := strtod (strip text) in Ok (CFlt F64 false m e).

(** std::regex_replace of all occurrences of a backslash and [x] by [y]. *)
Fixpoint repl (x y : byte) (s : list byte) : list byte :=
  match s with
  | a :: ((b :: r) as t) => if (a =? BACK) && (b =? x) then y :: repl x y r else a :: repl x y t
  | _ => s
  end.
(** DaphneDSLVisitor.cpp, lines 1998-2014: string literals. *)
Definition unescape (s : list byte) : list byte :=
  repl 92 92 (repl 34 34 (repl 116 9 (repl 114 13 (repl 110 10 (repl 102 12 (repl 98 8 s)))))).
Definition visit_str (text : list byte) : outcome const :=
  Ok (CStr (unescape (take (length text - 2) (drop 1 text)))).

(** DaphneDSLVisitor.cpp, lines 1930-2031 (visitLiteral, visitBoolLiteral) for a text that is one
    token; an error of the lexer or parser otherwise.  Simplification: white space and
    comments around the token are not accepted. *)
Definition visit_literal (s : list byte) : outcome const :=
  if is_int s then visit_int s
  else if is_float_text s then visit_float s
  else if decide (s = TRUE) then Ok (CBool true)
  else if decide (s = FALSE) then Ok (CBool false)
  else if is_str s then visit_str s
  else Throw.

(** The value of a unary minus (EwMinusOp) on a constant: modulo 2^64 on integers (C56).
    Simplification: an error for booleans and strings. *)
Definition minus (c : const) : outcome const :=
  match c with
  | CInt SI64 z => Ok (CInt SI64 ((- z + 2 ^ 63) mod 2 ^ 64 - 2 ^ 63)%Z)
  | CInt UI64 z => Ok (CInt UI64 ((- z) mod 2 ^ 64)%Z)
  | CFlt t n m e => Ok (CFlt t (negb n) m e)
  | CInf t n => Ok (CInf t (negb n))
  | CNan t => Ok (CNan t)
  | _ => Throw
  end.

(** * Script arguments *)
Definition EQ : byte := 61.
Definition COMMAB : byte := 44.
(** std::string::find and substr: what is before and after the first [c]. *)
Fixpoint cut (c : byte) (s : list byte) : option (list byte * list byte) :=
  match s with
  | [] => None
  | a :: s => if a =? c then Some ([], s) else match cut c s with Some (x, y) => Some (a :: x, y) | None => None end
  end.
Definition env := list (list byte * list byte).
Fixpoint find_arg (m : env) (n : list byte) : option (list byte) :=
  match m with [] => None | (k, v) :: m => if decide (k = n) then Some v else find_arg m n end.
(** src/api/internal/daphne_internal.cpp, lines 65-78 (parseScriptArgs). *)
Fixpoint parse_args (items : list (list byte)) (m : env) : outcome env :=
  match items with
  | [] => Ok m
  | it :: items =>
      match cut EQ it with
      | None => Throw
      | Some (n, v) => match find_arg m n with Some _ => Throw | None => parse_args items (m ++ [(n, v)]) end
      end
  end.
(** llvm::cl::CommaSeparated (daphne_internal.cpp, lines 342-346): the pieces between commas. *)
Fixpoint commas (s : list byte) : list (list byte) :=
  match s with
  | [] => [[]]
  | a :: s => if a =? COMMAB then [] :: commas s else match commas s with p :: ps => (a :: p) :: ps | [] => [[a]] end
  end.
(** daphne_internal.cpp, lines 609-616: arguments after the script, then those of --args. *)
Definition script_args (after : list (list byte)) (dashed : list (list byte)) : outcome env :=
  let* m := parse_args after [] in parse_args (concat (map commas dashed)) m.
(** DaphneDSLVisitor.cpp, lines 862-914 (visitArgExpr). *)
Definition arg_expr (m : env) (n : list byte) : outcome const :=
  match find_arg m n with
  | None => Throw
  | Some v =>
      match v with
      | 45 :: v' => let* c := visit_literal v' in minus c
      | _ => visit_literal v
      end
  end.

(** * Matrix and frame literals *)
(** An element: its value type, whether it is a constant at parse time, and its value
    (numbers in the unit of PromoteModel.v). *)
Inductive value := Num (x : Z) | Text (s : list byte).
Record el := mkEl { e_t : vt; e_const : bool; e_val : value }.
(** The types buildColMatrixFromValues and visitMatrixLiteralExpr know: integers of 8, 32 and 64
    bits, bool, float and double; not the type of sizes (index). *)
Definition el_type (t : vt) : bool := match t with IDX | STR | UNK => false | _ => true end.
Definition conv (t : vt) (e : el) : outcome value :=
  match e_val e with Num x => let* y := cast_arg (e_t e) t x in Ok (Num y) | Text _ => UB end.
(** DaphneDSLVisitor.cpp, lines 1541-1609: the array of constants (others are left 0) and the
    positions of the others. *)
Fixpoint fill (t : vt) (i : nat) (es : list el) : outcome (list value * list nat) :=
  match es with
  | [] => Ok ([], [])
  | e :: es =>
      let* p := (if decide (t = STR) then
                   (* isConstant<std::string> constructs a string from a null pointer if the
                      element is not a constant: std::logic_error *)
                   if decide (e_t e = STR) then if e_const e then Ok (e_val e, false) else Throw else Throw
                 else if el_type (e_t e) then
                   if e_const e then let* v := conv t e in Ok (v, false) else Ok (Num 0, true)
                 else Throw) in
      let* r := fill t (S i) es in
      Ok (fst p :: fst r, if snd p : bool then i :: snd r else snd r)
  end.
(** DaphneDSLVisitor.cpp, lines 1619-1637: the other elements are cast and inserted. *)
Fixpoint patch (t : vt) (es : list el) (idx : list nat) (vals : list value) : outcome (list value) :=
  match idx with
  | [] => Ok vals
  | i :: idx => let* e := rd es i in let* v := conv t e in let* vals := wr vals i v in patch t es idx vals
  end.
(** DaphneDSLVisitor.cpp, lines 1539-1641 (buildColMatrixFromValues). *)
Definition build_col (t : vt) (es : list el) : outcome (list value) :=
  let* p := fill t 0 es in patch t es (snd p) (fst p).

Definition size64 (z : Z) : Z := (z mod 2 ^ 64)%Z.
(** DaphneDSLVisitor.cpp, lines 1651-1675: the dimensions; the given ones are si64 values.
    A division by zero is an error of the kernel. *)
Definition dims (n : Z) (rows cols : option Z) : outcome (Z * Z) :=
  match rows, cols with
  | None, None => Ok (n, 1)%Z
  | Some r, Some c => Ok (size64 r, size64 c)
  | None, Some c => if decide (size64 c = 0)%Z then Throw else Ok (n / size64 c, size64 c)%Z
  | Some r, None => if decide (size64 r = 0)%Z then Throw else Ok (size64 r, n / size64 r)%Z
  end.
(** src/runtime/local/kernels/Reshape.h, lines 55-94, for a column matrix with [n] rows. *)
Definition reshape_col {A} (vals : list A) (r c : Z) : outcome (Z * Z * list A) :=
  let n := Z.of_nat (length vals) in
  if decide (r = n /\ c = 1)%Z then Ok (r, c, vals)
  else if decide (size64 (r * c) = size64 n)%Z then Ok (r, c, vals) else Throw.
(** DaphneDSLVisitor.cpp, lines 1644-1742 (visitMatrixLiteralExpr): type, shape and cells in
    row-major order. *)
Definition matrix_literal (es : list el) (rows cols : option Z) : outcome (vt * (Z * Z * list value)) :=
  let* d := dims (Z.of_nat (length es)) rows cols in
  if decide (es = []) then Throw
  else
    let* t := most_general (map e_t es) in
    if el_type t || bool_decide (t = STR) then
      let* vals := build_col t es in
      let* m := reshape_col vals (fst d) (snd d) in
      Ok (t, m)
    else Throw.
(** DaphneDSLVisitor.cpp, lines 1816-1827: a row is added to the columns. *)
Fixpoint add_row (cols : list (list el)) (row : list el) : list (list el) :=
  match cols, row with
  | c :: cols, e :: row => (c ++ [e]) :: add_row cols row
  | cols, _ => cols
  end.
Fixpoint add_rows (n : nat) (rows : list (list el)) (cols : list (list el)) : outcome (list (list el)) :=
  match rows with
  | [] => Ok cols
  | row :: rows => if decide (length row = n) then add_rows n rows (add_row cols row) else Throw
  end.
(** DaphneDSLVisitor.cpp, lines 1829-1887: one column; not of strings. *)
Definition frame_col (es : list el) : outcome (vt * list value) :=
  let* t := most_general (map e_t es) in
  if el_type t then let* vals := build_col t es in Ok (t, vals) else Throw.
(** DaphneDSLVisitor.cpp, lines 1786-1895 (visitRowMajorFrameLiteralExpr). *)
Definition frame_literal (labels : list el) (rows : list (list el)) : outcome (list (vt * list value) * list value) :=
  let n := length labels in
  if decide (n = 0 \/ rows = []) then Throw
  else if forallb (fun l => bool_decide (e_t l = STR)) labels then
    let* cols := add_rows n rows (replicate n []) in
    let* cs := mapo frame_col cols in
    Ok (cs, map e_val labels)
  else Throw.
