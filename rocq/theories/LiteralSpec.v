(** What literals and script arguments mean, independent of how they are read. *)
From stdpp Require Import base numbers sorting list.
From Coq Require Import QArith Qpower.
From Verif Require Import CppBase PromoteModel PromoteSpec CsvModel LiteralModel.
Open Scope nat_scope.

(** ** Numbers *)
(** [digs s v k]: the text [s] consists of [k] decimal digits, possibly with single
    separators (' or _) between them, and is the number [v]. *)
Inductive digs : list byte -> Z -> nat -> Prop :=
| digs_one d : d < 10 -> digs [48 + d] (Z.of_nat d) 1
| digs_more s v k d : digs s v k -> d < 10 -> digs (s ++ [48 + d]) (10 * v + Z.of_nat d)%Z (S k)
| digs_sep s v k d c : digs s v k -> d < 10 -> (c = 39 \/ c = 95) -> digs (s ++ [c; 48 + d]) (10 * v + Z.of_nat d)%Z (S k).
(** Without superfluous zeros in front. *)
Definition numeral (s : list byte) (v : Z) : Prop :=
  exists k, digs s v k /\ (s = [48] \/ head s <> Some 48).
(** An exponent: a sign (or none) and a numeral without separators. *)
Definition exponent (s : list byte) (v : Z) : Prop :=
  exists t w, numeral t w /\ 39 ∉ t /\ 95 ∉ t /\
    ((s = t /\ v = w) \/ (s = 43 :: t /\ v = w) \/ (s = 45 :: t /\ v = (- w)%Z)).

(** Suffixes of integer literals, the type they stand for, and the largest number the
    compiler takes. *)
Inductive suffix := Plain0 | L | U | ULL | Z0.
Global Instance suffix_eq_dec : EqDecision suffix.
Proof. solve_decision. Defined.
Definition suffix_text (x : suffix) : list byte :=
  match x with Plain0 => [] | L => [108] | U => [117] | ULL => [117; 108; 108] | Z0 => [122] end.
Definition suffix_type (x : suffix) : vt := match x with Plain0 | L => SI64 | _ => UI64 end.
Definition suffix_max (x : suffix) : Z := match x with U | ULL => 2 ^ 64 - 1 | _ => 2 ^ 63 - 1 end.

(** The decimal number m * 10^e. *)
Definition decimal (m e : Z) : Q := inject_Z m * (inject_Z 10 ^ e).
(** [floating s q]: the text [s] (without suffix) denotes the number [q]. *)
Inductive floating : list byte -> Q -> Prop :=
| fl_frac i vi f vf k : numeral i vi -> digs f vf k ->
    floating (i ++ 46 :: f) (inject_Z vi + inject_Z vf * (inject_Z 10 ^ (- Z.of_nat k)))
| fl_exp i vi x vx e : numeral i vi -> exponent x vx -> (e = 101 \/ e = 69) ->
    floating (i ++ e :: x) (inject_Z vi * (inject_Z 10 ^ vx))
| fl_frac_exp i vi f vf k x vx e : numeral i vi -> digs f vf k -> exponent x vx -> (e = 101 \/ e = 69) ->
    floating (i ++ 46 :: f ++ e :: x) ((inject_Z vi + inject_Z vf * (inject_Z 10 ^ (- Z.of_nat k))) * (inject_Z 10 ^ vx)).
(** What strtof reports as an error: the number is rounded to infinity, or it is less than
    the smallest normal float and no multiple of the smallest float. *)
Definition beyond_float (q : Q) : Prop :=
  (inject_Z ((2 ^ 25 - 1) * 2 ^ 103) <= q)%Q \/
  (0 < q /\ q * inject_Z (2 ^ 126) < 1 /\ ~ exists z, q * inject_Z (2 ^ 149) == inject_Z z)%Q.

(** ** Strings *)
(** A string literal consists of plain characters and escape sequences. *)
Inductive item := Pl (c : byte) | Es (c : byte).
Definition item_ok (i : item) : Prop :=
  match i with Pl c => c <> 34 /\ c <> 92 | Es c => c ∈ [98; 102; 110; 114; 116; 34; 92] end.
Definition item_text (i : item) : list byte := match i with Pl c => [c] | Es c => [92; c] end.
(** A backslash and b, f, n, r, t, quotation mark or backslash stands for backspace, form feed,
    new line, carriage return, tab, quotation mark and backslash, respectively. *)
Definition item_char (i : item) : byte :=
  match i with
  | Pl c => c
  | Es 98 => 8 | Es 102 => 12 | Es 110 => 10 | Es 114 => 13 | Es 116 => 9 | Es c => c
  end.
Definition quoted (l : list item) : list byte := 34 :: concat (map item_text l) ++ [34].
Definition meaning (l : list item) : list byte := map item_char l.
(** A backslash followed by one of the letters b, f, n, r, t. *)
Definition letters : list byte := [98; 102; 110; 114; 116].
Definition back_letter (s : list byte) : Prop :=
  exists a c b, s = a ++ 92 :: c :: b /\ c ∈ letters.

(** ** Script arguments *)
(** name=value, where the name has no = *)
Fixpoint join (ps : list (list byte)) : list byte :=
  match ps with [] => [] | [p] => p | p :: ps => p ++ 44 :: join ps end.
(** The pieces of a text between its commas. *)
Definition pieces (s : list byte) (ps : list (list byte)) : Prop :=
  ps <> [] /\ join ps = s /\ Forall (fun p => 44 ∉ p) ps.
Definition named (it n v : list byte) : Prop := it = n ++ 61 :: v /\ 61 ∉ n.

(** ** Negation *)
(** [c'] is the negative of [c]. *)
Definition negated (c c' : const) : Prop :=
  match c, c' with
  | CInt SI64 z, CInt SI64 z' => z' = (- z)%Z
  | CFlt t n m e, CFlt t' n' m' e' => t' = t /\ n' = negb n /\ m' = m /\ e' = e
  | CInf t n, CInf t' n' => t' = t /\ n' = negb n
  | CNan t, CNan t' => t' = t
  | _, _ => False
  end.

(** ** Matrices and frames *)
(** Elements that are numbers of a type matrices can have. *)
Definition number_el (e : el) : Prop :=
  e_t e ∈ [B1; SI8; UI8; SI32; UI32; SI64; UI64; F32; F64] /\ exists x, e_val e = Num x.
(** [v] is the element converted to the type [t] (C80). *)
Definition converted (t : vt) (e : el) (v : value) : Prop :=
  exists x y, e_val e = Num x /\ cast_arg (e_t e) t x = Ok y /\ v = Num y.
(** The shape a matrix literal with [n] elements asks for. *)
Definition shape (n : Z) (rows cols : option Z) (r c : Z) : Prop :=
  (0 <= r)%Z /\ (0 <= c)%Z /\ (r * c = n)%Z /\
  match rows, cols with
  | None, None => c = 1%Z
  | Some a, None => r = a
  | None, Some b => c = b
  | Some a, Some b => r = a /\ c = b
  end.
(** Dimensions that do not overflow. *)
Definition moderate (rows cols : option Z) : Prop :=
  match rows, cols with
  | None, None => True
  | Some a, None | None, Some a => (0 <= a < 2 ^ 64)%Z
  | Some a, Some b => (0 <= a < 2 ^ 64)%Z /\ (0 <= b < 2 ^ 64)%Z /\ (a * b < 2 ^ 64)%Z
  end.
