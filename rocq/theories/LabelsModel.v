(** Model of what the compiler infers about the columns of frames - their value types and their labels - of the schema that the kernels
    give the result, and of the label-based simplifications of frame operations:
    src/ir/daphneir/DaphneInferTypesOpInterface.cpp, src/ir/daphneir/DaphneInferFrameLabelsOpInterface.cpp,
    src/compiler/inference/TypeInferenceUtils.h, src/compiler/inference/InferencePass.cpp, src/ir/daphneir/Canonicalize.cpp and
    the kernels on frames in src/runtime/local/kernels.
    The data of a column is an abstract value; which rows an operation selects or combines is an arbitrary function of the frames. *)
From stdpp Require Import base numbers list strings pretty.
From Coq Require Import Lia.
From Verif Require Import CppBase.

(** The value types of columns (ValueTypeCode.h); [OtherVt] stands for the remaining ones. *)
Inductive vt := SI64 | UI64 | F64 | STR | OtherVt (n : nat).
#[global] Instance vt_eq_dec : EqDecision vt. Proof. solve_decision. Defined.
(** GroupEnum. *)
Inductive aggfn := COUNT | SUM | MIN | MAX | AVG.
#[global] Instance aggfn_eq_dec : EqDecision aggfn. Proof. solve_decision. Defined.

Local Open Scope string_scope.
(** label.substr(0, label.find(".")): the text before the first dot, the whole label if there is none. *)
Fixpoint before_dot (s : string) : string :=
  match s with
  | EmptyString => EmptyString
  | String c r => if decide (String c "" = ".") then EmptyString else String c (before_dot r)
  end.
(** The text behind the first dot; None if there is no dot. *)
Fixpoint behind_dot (s : string) : option string :=
  match s with
  | EmptyString => None
  | String c r => if decide (String c "" = ".") then Some r else behind_dot r
  end.
(** label.substr(label.find(".") + 1, ...): without a dot, find returns npos and npos + 1 is 0, so it is the whole label. *)
Definition col_label (s : string) : string := default s (behind_dot s).
(** colLabel.compare("*") == 0. *)
Definition wildcard (s : string) : bool := bool_decide (col_label s = "*").
(** LabelUtils.h 26-29: setPrefix. *)
Definition set_prefix (p l : string) : string :=
  match behind_dot l with None => p +:+ "." +:+ l | Some r => p +:+ "." +:+ r end.
(** Frame.h 318: getDefaultLabel. *)
Definition default_lbl (i : nat) : string := "col_" +:+ pretty i.
(** Group.h: myStringifyGroupEnum, and stringifyGroupEnum at compile-time. *)
Definition agg_name (a : aggfn) : string :=
  match a with COUNT => "COUNT" | SUM => "SUM" | MIN => "MIN" | MAX => "MAX" | AVG => "AVG" end.
Definition agg_label (a : aggfn) (l : string) : string := agg_name a +:+ "(" +:+ l +:+ ")".
Definition sum_label (l : string) : string := "SUM(" +:+ l +:+ ")".
Local Close Scope string_scope.

(** A string operand of an operation: the SSA value (its identity), the string it has at run-time, whether it is a constant when the
    inference runs. *)
Record sarg := SArg { s_id : nat; s_val : string; s_const : bool }.
(** CompilerUtils::constantOrThrow. *)
Definition const_or_throw (s : sarg) : outcome string := if s_const s then Ok (s_val s) else Throw.

(** DaphneTypes.td 158-168: the type of a frame, as far as it concerns columns: one value type (or unknown) per column, and the labels
    (None is the null pointer: unknown). *)
Record ftype := FT { f_cts : list (option vt); f_lbls : option (list string) }.

(** The compiler's loops over constant labels. *)
Fixpoint omap_out {X Y} (f : X → outcome Y) (l : list X) : outcome (list Y) :=
  match l with [] => Ok [] | x :: l' => let* y := f x in let* r := omap_out f l' in Ok (y :: r) end.

(** DaphneInferTypesOpInterface.cpp 40-59: getFrameColumnTypeByLabel. The loop runs over the column types and reads labels[i]. *)
Fixpoint type_at_label (cts : list (option vt)) (ls : list string) (l : string) : outcome (option vt) :=
  match cts with
  | [] => Throw
  | c :: cts' => match ls with [] => UB | x :: ls' => if decide (x = l) then Ok c else type_at_label cts' ls' l end
  end.
Definition type_by_label (t : ftype) (s : sarg) : outcome (option vt) :=
  let* l := const_or_throw s in match f_lbls t with Some ls => type_at_label (f_cts t) ls l | None => Ok None end.
(** DaphneInferTypesOpInterface.cpp 211-222 and 340-349: the types of the columns of one frame name; the loop runs over the labels and
    reads colTypes[i]. *)
Fixpoint types_of_name (cts : list (option vt)) (ls : list string) (name : string) : outcome (list (option vt)) :=
  match ls with
  | [] => Ok []
  | l :: ls' =>
      if decide (before_dot l = name) then
        match cts with [] => UB | c :: cts' => let* r := types_of_name cts' ls' name in Ok (c :: r) end
      else types_of_name (tail cts) ls' name
  end.
(** DaphneInferFrameLabelsOpInterface.cpp 109-115: the labels of one frame name. *)
Definition labels_of_name (ls : list string) (name : string) : list string := filter (fun l => before_dot l = name) ls.

(** DaphneInferFrameLabelsOpInterface.cpp 254-269: SetColLabelsOp; [acc] is newLabels, None once it has been deleted and set to null. *)
Fixpoint set_labels_loop (acc : option (list string)) (ls : list sarg) : outcome (option (list string)) :=
  match ls with
  | [] => Ok acc
  | s :: ls' =>
      if s_const s then match acc with Some a => set_labels_loop (Some (a ++ [s_val s])) ls' | None => UB end
      else set_labels_loop None ls'
  end.

(** SliceColOp::inferTypes (DaphneInferTypesOpInterface.cpp 498-560) and the kernel (SliceCol.h 92-103): the bounds after the treatment
    of negative ones. *)
Definition slice_bounds (n lo hi : Z) : Z * Z :=
  if decide (lo < 0)%Z then ((lo + n)%Z, if decide (hi <= 0)%Z then (hi + n)%Z else hi)
  else (lo, if decide (hi < 0)%Z then (hi + n)%Z else hi).
(** The elements [lo, hi) of a list, or an error. *)
Definition slice_list {X} (lo hi : Z) (l : list X) : outcome (list X) :=
  let n := Z.of_nat (length l) in
  let '(lo, hi) := slice_bounds n lo hi in
  if decide (lo < 0 \/ n <= lo)%Z then Throw
  else if decide (hi < 0 \/ n < hi)%Z then Throw
  else if decide (hi < lo)%Z then Throw
  else Ok (take (Z.to_nat (hi - lo)) (drop (Z.to_nat lo) l)).

Section columns.
  Context {A : Type} (aty : A → vt).
  (** A frame at run-time: label and data of each column; the data has a value type. *)
  Notation frame := (list (string * A)).

  (** A (single-column) matrix operand: its value type at compile-time and its data. *)
  Record mat := Mat { m_static : option vt; m_data : A }.
  (** The rows that a join combines: whether the kernel succeeds, and the columns it makes of the columns of the two sides. *)
  Record jfun := JF { j_ok : frame → frame → bool; j_l : frame → frame → A → A; j_r : frame → frame → A → A }.

  Inductive unop :=
    | URow (g : frame → A → A)                 (* filterRow, extractRow, order: other rows, same columns *)
    | UExtract (sel : sarg)                    (* extractCol by label *)
    | UPos (ps : list Z) (known : bool)        (* extractCol by positions; is the number of positions known at compile-time? *)
    | USlice (lo hi : Z) (const : bool)        (* sliceCol; are the bounds constants? *)
    | USet (ls : list sarg)                    (* setColLabels *)
    | UPrefix (p : sarg)                       (* setColLabelsPrefix *)
    | UGroup (keys : list sarg) (aggs : list (aggfn * sarg)) (gk : frame → A → A) (ga : frame → aggfn → A → A).
  Inductive binop :=
    | BColBind
    | BCartesian (j : jfun)
    | BInner (j : jfun)
    | BTheta (j : jfun)
    | BSemi (lon : sarg) (j : jfun)
    | BGroupJoin (lon ragg : sarg) (j : jfun).
  (** An expression over frames. [ERead const cs ls]: reading a file whose metadata has the columns [cs] and labels [ls] (empty: no labels
      given); [const]: is the file name a constant? [EIf c same]: the value of a variable behind an if; [same]: are the two branches' labels
      the same C++ object? *)
  Inductive fexp :=
    | ERead (const : bool) (cs : list A) (ls : list string)
    | ECreate (cols : list mat) (labels : list sarg)
    | ECast (c : mat)
    | EUn (u : unop) (e : fexp)
    | EBin (b : binop) (l r : fexp)
    | EIf (c same : bool) (t e : fexp).

  (** ---- Run-time ---- *)
  (** Frame.h 96-104 within a constructor or setLabels: a frame with the given labels, all different. Fewer labels than columns are read
      out of bounds. *)
  Definition make_frame (ls : list string) (cs : list A) : outcome frame :=
    if decide (length cs <= length ls) then
      let f := zip (take (length cs) ls) cs in if decide (NoDup (f.*1)) then Ok f else Throw
    else UB.
  (** Frame.h 114-121: initDeduplicatedLabels2Idxs. *)
  Fixpoint dedup (seen : list string) (i : nat) (f : frame) : frame :=
    match f with
    | [] => []
    | p :: f' => let l := if decide (p.1 ∈ seen) then default_lbl i else p.1 in (l, p.2) :: dedup (l :: seen) (S i) f'
    end.
  (** Frame.h 335-353: getColumnIdx; labels2idxs maps a label to the last column with it. *)
  Fixpoint find_col (f : frame) (l : string) : option (string * A) :=
    match f with
    | [] => None
    | p :: f' => match find_col f' l with Some q => Some q | None => if decide (p.1 = l) then Some p else None end
    end.
  Definition get_col (f : frame) (l : string) : outcome (string * A) := match find_col f l with Some p => Ok p | None => Throw end.
  (** ExtractCol.h 121-144. *)
  Definition run_extract (l : string) (f : frame) : outcome frame :=
    if wildcard l then
      let* cs := omap_out (get_col f) (labels_of_name (f.*1) (before_dot l)) in Ok (dedup [] 0 cs)
    else let* p := get_col f l in Ok [p].
  (** ExtractCol.h 146-180: by positions. *)
  Definition pos_col (f : frame) (z : Z) : outcome (string * A) :=
    let z' := if decide (z < 0)%Z then (z + Z.of_nat (length f))%Z else z in
    if decide (z' < 0)%Z then Throw else match f !! Z.to_nat z' with Some p => Ok p | None => Throw end.
  Definition run_pos (ps : list Z) (f : frame) : outcome frame := let* cs := omap_out (pos_col f) ps in Ok (dedup [] 0 cs).
  (** SliceCol.h 92-103, Frame.h 416-428. *)
  Definition run_slice (lo hi : Z) (f : frame) : outcome frame := let* cs := slice_list lo hi f in Ok (dedup [] 0 cs).
  (** SetColLabels.h 32-53. *)
  Definition run_set (ls : list string) (f : frame) : outcome frame :=
    if decide (length ls = length f) then make_frame ls (f.*2) else Throw.
  (** SetColLabelsPrefix.h 32-50. *)
  Definition run_prefix (p : string) (f : frame) : outcome frame := make_frame (set_prefix p <$> f.*1) (f.*2).
  (** ExtractRow.h 94, FilterRow.h 115, Order.h: a new frame with the labels and the schema of the argument. *)
  Definition run_rows (g : frame → A → A) (f : frame) : outcome frame := make_frame (f.*1) (g f <$> f.*2).

  (** Group.h 192-228: starLabels. *)
  Definition star_of_key (f : frame) (aggs : list string) (k : string) : list string :=
    if decide (k = "*"%string) then filter (fun l => l ∉ aggs) (f.*1)
    else if wildcard k then labels_of_name (f.*1) (before_dot k) else [].
  (** Group.h 230-311: the columns of the result. The array `ascending`, too small for keys given by name, is left out (see the
      findings), and so is the case of wildcard keys that match no column: there getColumnIdx does not find the key (an error here). *)
  Definition run_group (keys : list string) (aggs : list (aggfn * string)) (gk : frame → A → A) (ga : frame → aggfn → A → A)
      (f : frame) : outcome frame :=
    let star := keys ≫= star_of_key f (aggs.*2) in
    let wild := existsb wildcard keys in
    let* kcols := (match star with
                   | [] => if wild then Throw else omap_out (get_col f) keys
                   | _ => omap_out (get_col f) star
                   end) in
    let* acols := omap_out (fun a : aggfn * string => get_col f a.2) aggs in
    make_frame (kcols.*1 ++ ((fun a : aggfn * string => agg_label a.1 a.2) <$> aggs))
               ((gk f <$> kcols.*2) ++ zip_with (fun (a : aggfn * string) p => ga f a.1 p) aggs (acols.*2)).

  (** Cartesian.h 40-61, InnerJoin.h 156-176, ThetaJoin.h 96-130: the columns of the left side, then those of the right side. *)
  Definition run_join (j : jfun) (l r : frame) : outcome frame :=
    if j_ok j l r then make_frame (l.*1 ++ r.*1) ((j_l j l r <$> l.*2) ++ (j_r j l r <$> r.*2)) else Throw.
  (** SemiJoin.h 120-152; GroupJoin.h 137-167. *)
  Definition run_semi (lon : string) (j : jfun) (l r : frame) : outcome frame :=
    if j_ok j l r then let* p := get_col l lon in make_frame [lon] [j_l j l r p.2] else Throw.
  Definition run_groupjoin (lon ragg : string) (j : jfun) (l r : frame) : outcome frame :=
    if j_ok j l r then
      let* p := get_col l lon in let* q := get_col r ragg in
      make_frame [lon; sum_label ragg] [j_l j l r p.2; j_r j l r q.2]
    else Throw.

  Definition run_un (u : unop) (f : frame) : outcome frame :=
    match u with
    | URow g => run_rows g f
    | UExtract s => run_extract (s_val s) f
    | UPos ps _ => run_pos ps f
    | USlice lo hi _ => run_slice lo hi f
    | USet ls => run_set (s_val <$> ls) f
    | UPrefix p => run_prefix (s_val p) f
    | UGroup keys aggs gk ga => run_group (s_val <$> keys) ((fun a : aggfn * sarg => (a.1, s_val a.2)) <$> aggs) gk ga f
    end.
  Definition run_bin (b : binop) (l r : frame) : outcome frame :=
    match b with
    | BColBind => make_frame (l.*1 ++ r.*1) (l.*2 ++ r.*2)                      (* Frame.h 163-186 *)
    | BCartesian j | BInner j | BTheta j => run_join j l r
    | BSemi lon j => run_semi (s_val lon) j l r
    | BGroupJoin lon ragg j => run_groupjoin (s_val lon) (s_val ragg) j l r
    end.
  (** Frame.h 209-240: the frame made of column matrices; no labels: the default ones. *)
  Definition or_default (ls : list string) (n : nat) : list string := match ls with [] => default_lbl <$> seq 0 n | _ => ls end.
  Fixpoint run (e : fexp) : outcome frame :=
    match e with
    | ERead _ cs ls => make_frame (or_default ls (length cs)) cs                (* Read.h 141-171 *)
    | ECreate cols ls =>                                                        (* CreateFrame.h 33-46 *)
        match cols with [] => Throw | _ => make_frame (or_default (s_val <$> ls) (length cols)) (m_data <$> cols) end
    | ECast c => make_frame (or_default [] 1) [m_data c]                        (* CastObj.h 145-170 *)
    | EUn u e => let* f := run e in run_un u f
    | EBin b l r => let* fl := run l in let* fr := run r in run_bin b fl fr
    | EIf c _ t e => if c then run t else run e
    end.

  (** ---- Compile-time ---- *)
  (** DaphneInferFrameLabelsOpInterface.cpp 215-238: the labels of the keys; *arg.getLabels() without a check. *)
  Definition key_labels (t : ftype) (k : string) : outcome (list string) :=
    if decide (k = "*"%string) then match f_lbls t with Some ls => Ok ls | None => UB end
    else if wildcard k then match f_lbls t with Some ls => Ok (labels_of_name ls (before_dot k)) | None => UB end
    else Ok [k].
  (** DaphneInferTypesOpInterface.cpp 327-353: the types of the keys. *)
  Definition key_types (t : ftype) (s : sarg) : outcome (list (option vt)) :=
    let* k := const_or_throw s in
    if decide (k = "*"%string) then Ok (f_cts t)
    else if wildcard k then match f_lbls t with Some ls => types_of_name (f_cts t) ls (before_dot k) | None => UB end
    else let* c := type_by_label t s in Ok [c].
  (** DaphneInferTypesOpInterface.cpp 363-374: the type of an aggregate. *)
  Definition agg_type (t : ftype) (a : aggfn * sarg) : outcome (option vt) :=
    match a.1 with COUNT => Ok (Some SI64) | AVG => Ok (Some F64) | _ => type_by_label t a.2 end.
  Definition infer_group (keys : list sarg) (aggs : list (aggfn * sarg)) (t : ftype) : outcome ftype :=
    let* kts := omap_out (key_types t) keys in
    let* ats := omap_out (agg_type t) aggs in
    let* kls := omap_out (fun s => let* k := const_or_throw s in key_labels t k) keys in
    let* als := omap_out (fun a : aggfn * sarg => let* l := const_or_throw a.2 in Ok (agg_label a.1 l)) aggs in
    Ok (FT (concat kts ++ ats) (Some (concat kls ++ als))).
  (** DaphneInferTypesOpInterface.cpp 193-259 and DaphneInferFrameLabelsOpInterface.cpp 100-127: ExtractColOp. *)
  Definition infer_extract (s : sarg) (t : ftype) : outcome ftype :=
    let* l := const_or_throw s in
    if wildcard l then
      match f_lbls t with
      | Some ls => let* cts := types_of_name (f_cts t) ls (before_dot l) in Ok (FT cts (Some (labels_of_name ls (before_dot l))))
      | None => UB
      end
    else let* c := type_by_label t s in Ok (FT [c] (Some [l])).
  Definition infer_un (u : unop) (t : ftype) : outcome ftype :=
    match u with
    | URow _ => Ok t                                                            (* TypeFromFirstArg; labels 38-44, 166-172 *)
    | UExtract s => infer_extract s t
    | UPos ps known => Ok (FT (if known then (fun _ => None) <$> ps else []) None)  (* 226-246; no labels *)
    | USlice lo hi const =>                                                     (* 498-562; no label inference for SliceColOp *)
        if const then let* cts := slice_list lo hi (f_cts t) in Ok (FT cts None) else Ok (FT [None] None)
    | USet ls => let* r := set_labels_loop (Some []) ls in Ok (FT (f_cts t) r)
    | UPrefix p =>                                                              (* labels 271-285 *)
        let* p := const_or_throw p in Ok (FT (f_cts t) (match f_lbls t with Some ls => Some (set_prefix p <$> ls) | None => None end))
    | UGroup keys aggs _ _ => infer_group keys aggs t
    end.
  (** ValueTypesConcat (TypeInferenceUtils.h 220-240) for the types of ColBind and the joins. *)
  Definition infer_bin (b : binop) (l r : ftype) : outcome ftype :=
    let cts := f_cts l ++ f_cts r in
    match b with
    | BColBind =>                                                               (* labels 69-90 *)
        match f_lbls l, f_lbls r with Some a, Some b => Ok (FT cts (Some (a ++ b))) | _, _ => Throw end
    | BCartesian _ | BInner _ =>                                                (* labels 149-164, 174-189 *)
        Ok (FT cts (Some (default [] (f_lbls l) ++ default [] (f_lbls r))))
    | BTheta _ =>                                                               (* labels 191-208 *)
        Ok (FT cts (match f_lbls l, f_lbls r with Some a, Some b => Some (a ++ b) | _, _ => None end))
    | BSemi lon _ =>                                                            (* types 308-315, labels 142-147 *)
        let* c := type_by_label l lon in let* n := const_or_throw lon in Ok (FT [c] (Some [n]))
    | BGroupJoin lon ragg _ =>                                                  (* types 297-306, labels 133-140 *)
        let* c := type_by_label l lon in let* d := type_by_label r ragg in
        let* n := const_or_throw lon in let* m := const_or_throw ragg in Ok (FT [c; d] (Some [n; sum_label m]))
    end.
  (** InferencePass.cpp 83-104: getTypeWithCommonInfo for two frames; the labels are compared as pointers. *)
  Definition common (same : bool) (t e : ftype) : ftype :=
    FT (if decide (length (f_cts t) = length (f_cts e)) then zip_with (fun c d => if decide (c = d) then c else None) (f_cts t) (f_cts e)
        else [None])
       (if same then (if decide (f_lbls t = f_lbls e) then f_lbls t else None) else None).
  Fixpoint infer (e : fexp) : outcome ftype :=
    match e with
    | ERead const cs ls =>                                                      (* types 458-496, labels 51-67 *)
        if const then Ok (FT ((fun c => Some (aty c)) <$> cs) (match ls with [] => None | _ => Some ls end)) else Ok (FT [None] None)
    | ECreate cols ls => let* l := omap_out const_or_throw ls in Ok (FT (m_static <$> cols) (Some l))  (* types 270-275, labels 92-98 *)
    | ECast c => Ok (FT [m_static c] None)
    | EUn u e => let* t := infer e in infer_un u t
    | EBin b l r => let* tl := infer l in let* tr := infer r in infer_bin b tl tr
    | EIf _ same t e => let* ty1 := infer t in let* ty2 := infer e in Ok (common same ty1 ty2)
    end.

  (** ---- Canonicalize.cpp 661-831 ---- *)
  (** One simplification at the root of an expression. *)
  Inductive canon : fexp → fexp → Prop :=
    (* 667-677: a frame with one column of that label *)
    | CanonSingle e t s l : infer e = Ok t → length (f_cts t) = 1 → f_lbls t = Some [l] → s_const s = true → s_val s = l →
        canon (EUn (UExtract s) e) e
    (* 678-716: a column of a created frame; the label is the same SSA value *)
    | CanonCreate cols ls i c s : ls !! i = Some s → cols !! i = Some c → length ls = length cols →
        canon (EUn (UExtract s) (ECreate cols ls)) (EUn (USet [s]) (ECast c))
    (* 717-736: the argument of colBind that has the label, the left one first *)
    | CanonLeft l r t ls s : infer l = Ok t → f_lbls t = Some ls → s_const s = true → s_val s ∈ ls →
        canon (EUn (UExtract s) (EBin BColBind l r)) (EUn (UExtract s) l)
    | CanonRight l r t ls s : infer r = Ok t → f_lbls t = Some ls → s_const s = true → s_val s ∈ ls →
        (∀ t' ls', infer l = Ok t' → f_lbls t' = Some ls' → s_val s ∉ ls') →
        canon (EUn (UExtract s) (EBin BColBind l r)) (EUn (UExtract s) r)
    (* 737-744: the same label twice *)
    | CanonTwice e s : canon (EUn (UExtract s) (EUn (UExtract s) e)) (EUn (UExtract s) e)
    (* 811-831: labels that the frame already has *)
    | CanonSet e t ss : infer e = Ok t → Forall (fun s => s_const s = true) ss → f_lbls t = Some (s_val <$> ss) →
        canon (EUn (USet ss) e) e.
  (** A simplification somewhere in an expression. *)
  Inductive step : fexp → fexp → Prop :=
    | StepRoot e e' : canon e e' → step e e'
    | StepUn u e e' : step e e' → step (EUn u e) (EUn u e')
    | StepL b l l' r : step l l' → step (EBin b l r) (EBin b l' r)
    | StepR b l r r' : step r r' → step (EBin b l r) (EBin b l r')
    | StepT c s t t' e : step t t' → step (EIf c s t e) (EIf c s t' e)
    | StepE c s t e e' : step e e' → step (EIf c s t e) (EIf c s t e').
End columns.
Arguments mat : clear implicits.
Arguments jfun : clear implicits.
Arguments unop : clear implicits.
Arguments binop : clear implicits.
Arguments fexp : clear implicits.
