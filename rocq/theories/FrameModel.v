(** Model of the frame class (src/runtime/local/datastructures/Frame.h): labels, slicing, concatenation.
    Columns are references into shared buffers. Not modelled: the byte-level representation of the columns (an offset is counted in
    elements, not bytes; Frame.h 299-301 multiplies by the element size), printing, serialization. *)
From stdpp Require Import base numbers strings pretty gmap list.
From Coq Require Import Lia.
From Verif Require Import CppBase DenseModel.

(** A column: Frame.h 87, a shared_ptr to the data. [c_id] identifies the allocation, [c_off] the first element, [c_type] is the
    column's entry in the schema (Frame.h 58). *)
Record column := mkCol { c_type : nat; c_id : nat; c_off : nat }.
(** Frame.h 50-87. *)
Record frame := mkF { f_rows : nat; f_cols : list column; f_labels : list string; f_map : gmap string nat }.

(** Frame.h 318: getDefaultLabel. *)
Definition default_label (i : nat) : string := ("col_" +:+ pretty i)%string.

(** Frame.h 96-104: initLabels2Idxs, the loop from position i on. *)
Fixpoint init_labels (m : gmap string nat) (i : nat) (labels : list string) : outcome (gmap string nat) :=
  match labels with
  | [] => Ok m
  | l :: labels' => match m !! l with Some _ => Throw | None => init_labels (<[l := i]> m) (i + 1) labels' end
  end.
(** Frame.h 114-121: initDeduplicatedLabels2Idxs, the loop from position i on; returns the (changed) labels too. *)
Fixpoint init_dedup (m : gmap string nat) (i : nat) (labels : list string) : list string * gmap string nat :=
  match labels with
  | [] => ([], m)
  | l :: labels' =>
      let l' := match m !! l with Some _ => default_label i | None => l end in
      let '(ls, m') := init_dedup (<[l' := i]> m) (i + 1) labels' in (l' :: ls, m')
  end.

(** Frame.h 136-161: a new frame with freshly allocated columns [cols]; [labels] = None is the null pointer. *)
Definition frame_new (rows : nat) (cols : list column) (labels : option (list string)) : outcome frame :=
  let ls := match labels with Some l => l | None => default_label <$> seq 0 (length cols) end in
  let* m := init_labels ∅ 0 ls in Ok (mkF rows cols ls m).
(** Frame.h 163-186: concatenation of the columns of two frames. *)
Definition frame_cbind (lhs rhs : frame) : outcome frame :=
  if decide (f_rows lhs = f_rows rhs) then
    let ls := f_labels lhs ++ f_labels rhs in
    let* m := init_labels ∅ 0 ls in Ok (mkF (f_rows lhs) (f_cols lhs ++ f_cols rhs) ls m)
  else Throw.
(** Frame.h 261-303: selection of a range of rows and a list of columns (lines 267-277 are the check [bad_range], as in DenseMatrix). *)
Definition frame_select (src : frame) (rl ru : Z) (idxs : list nat) : outcome frame :=
  if bad_range rl ru (f_rows src) then Throw
  else if forallb (fun i => bool_decide (i < length (f_cols src))) idxs then
    let pick {A} (l : list A) (d : A) := (fun i => default d (l !! i)) <$> idxs in
    let cols := (fun c => mkCol (c_type c) (c_id c) (c_off c + Z.to_nat rl)) <$> pick (f_cols src) (mkCol 0 0 0) in
    let '(ls, m) := init_dedup ∅ 0 (pick (f_labels src) ""%string) in
    Ok (mkF (Z.to_nat (ru - rl)) cols ls m)
  else Throw.
(** Frame.h 414-428: sliceRow, sliceCol, slice (size_t arguments). *)
Definition frame_slice (src : frame) (rl ru cl cu : nat) : outcome frame :=
  if decide (cu < cl) then Throw else frame_select src (Z.of_nat rl) (Z.of_nat ru) (seq cl (cu - cl)).
(** Frame.h 329-333: setLabels. The new state is returned together with the outcome: on an exception the labels have been replaced
    and the map is what initLabels2Idxs had built until then. *)
Fixpoint init_labels_partial (m : gmap string nat) (i : nat) (labels : list string) : gmap string nat :=
  match labels with
  | [] => m
  | l :: labels' => match m !! l with Some _ => m | None => init_labels_partial (<[l := i]> m) (i + 1) labels' end
  end.
Definition frame_set_labels (f : frame) (labels : list string) : frame * outcome unit :=
  (mkF (f_rows f) (f_cols f) labels (init_labels_partial ∅ 0 labels),
   let* _ := init_labels ∅ 0 labels in Ok tt).
(** Frame.h 335-353: getColumnIdx. *)
Definition frame_column_idx (f : frame) (label : string) : outcome nat :=
  match f_map f !! label with Some i => Ok i | None => Throw end.
(** Frame.h 365-371: getColumn, then get on the resulting column matrix; [ty] is the requested value type. *)
Definition frame_get {V} (heap : list (list V)) (f : frame) (ty r c : nat) : outcome V :=
  let* col := rd (f_cols f) c in
  if decide (ty = c_type col) then
    if decide (r < f_rows f) then let* b := rd heap (c_id col) in rd b (c_off col + r) else Throw
  else Throw.
