(** What it means that the compiler knows the columns of a frame, stated without the model's inference rules, and the programs for which
    it does. *)
From stdpp Require Import base numbers list strings.
From Verif Require Import CppBase LabelsModel.

Section spec.
  Context {A : Type} (aty : A → vt).
  Notation frame := (list (string * A)).

  (** What is known about the type of a column is right: it is unknown, or it is the type of the data. *)
  Definition right_type (c : option vt) (a : A) : Prop := c = None \/ c = Some (aty a).
  (** As many types as columns, each right; and the labels, if they are known, are the labels of the frame, in order. *)
  Definition right_types (t : ftype) (f : frame) : Prop := Forall2 right_type (f_cts t) (f.*2).
  Definition right_labels (t : ftype) (f : frame) : Prop := ∀ ls, f_lbls t = Some ls → ls = f.*1.
  Definition right (t : ftype) (f : frame) : Prop := right_types t f /\ right_labels t f.

  (** Kernels that keep the value types of the columns they copy, and the value types of aggregates. *)
  Definition keeps (g : A → A) : Prop := ∀ a, aty (g a) = aty a.
  Definition join_keeps (j : jfun A) : Prop := ∀ l r, keeps (j_l j l r) /\ keeps (j_r j l r).
  Definition agg_vt (fn : aggfn) (v : vt) : vt := match fn with COUNT => UI64 | AVG => F64 | _ => v end.
  Definition agg_keeps (ga : frame → aggfn → A → A) : Prop := ∀ f fn a, aty (ga f fn a) = agg_vt fn (aty a).

  (** The labels of an expression are known at compile-time. *)
  Definition labelled (e : fexp A) : Prop := ∀ t, infer aty e = Ok t → is_Some (f_lbls t).

  (** The number of columns of an intermediate result is known: constant file names and bounds, known numbers of positions; and the cases in
      which the inference is wrong are left out: counting, wildcard keys mixed with other keys, the key "*" together with aggregates, and
      inner joins and Cartesian products of frames with unknown labels. *)
  Definition un_complete (u : unop A) : Prop :=
    match u with
    | URow g => ∀ f, keeps (g f)
    | UPos _ known => known = true
    | USlice _ _ const => const = true
    | UGroup keys aggs gk ga =>
        (∀ f, keeps (gk f)) /\ agg_keeps ga /\ (∀ a, a ∈ aggs → a.1 ≠ COUNT) /\
        ((∀ k, k ∈ keys → wildcard (s_val k) = false) \/
         (∀ k, k ∈ keys → wildcard (s_val k) = true /\ (s_val k = "*"%string → aggs = [])))
    | UExtract _ | USet _ | UPrefix _ => True
    end.
  Definition bin_complete (b : binop A) (l r : fexp A) : Prop :=
    match b with
    | BColBind => True
    | BCartesian j | BInner j => join_keeps j /\ labelled l /\ labelled r
    | BTheta j | BSemi _ j | BGroupJoin _ _ j => join_keeps j
    end.
  Fixpoint complete (e : fexp A) : Prop :=
    match e with
    | ERead const cs ls => const = true /\ (ls = [] \/ length ls = length cs)
    | ECreate cols ls => Forall (fun c => right_type (m_static c) (m_data c)) cols /\ length ls = length cols
    | ECast c => right_type (m_static c) (m_data c)
    | EUn u e => complete e /\ un_complete u
    | EBin b l r => complete l /\ complete r /\ bin_complete b l r
    | EIf _ _ t e => complete t /\ complete e /\
        ∀ t1 t2, infer aty t = Ok t1 → infer aty e = Ok t2 → length (f_cts t1) = length (f_cts t2)
    end.

  (** Programs whose labels are all known where the compiler needs them: constant labels, and known labels for wildcards and for colBind. *)
  Definition un_known (u : unop A) (e : fexp A) : Prop :=
    match u with
    | UExtract s => s_const s = true /\ (wildcard (s_val s) = true → labelled e)
    | USet ls => Forall (fun s => s_const s = true) ls
    | UPrefix p => s_const p = true
    | UGroup keys aggs _ _ =>
        Forall (fun s => s_const s = true) keys /\ Forall (fun a : aggfn * sarg => s_const a.2 = true) aggs /\
        ((∃ k, k ∈ keys /\ wildcard (s_val k) = true) → labelled e)
    | _ => True
    end.
  Definition bin_known (b : binop A) (l r : fexp A) : Prop :=
    match b with
    | BColBind => labelled l /\ labelled r
    | BSemi lon _ => s_const lon = true
    | BGroupJoin lon ragg _ => s_const lon = true /\ s_const ragg = true
    | _ => True
    end.
  Fixpoint known (e : fexp A) : Prop :=
    match e with
    | ERead _ _ _ | ECast _ => True
    | ECreate _ ls => Forall (fun s => s_const s = true) ls
    | EUn u e => known e /\ un_known u e
    | EBin b l r => known l /\ known r /\ bin_known b l r
    | EIf c _ t e => known t /\ known e /\
        (* the branch that is not taken is accepted, too *)
        (if c then ∃ t2, infer aty e = Ok t2 else ∃ t1, infer aty t = Ok t1)
    end.

  (** No label that is extracted from a created frame or from the result of colBind reads like a wildcard. *)
  Definition plain_use (u : unop A) (e : fexp A) : Prop :=
    match u, e with
    | UExtract s, ECreate _ _ | UExtract s, EBin BColBind _ _ => wildcard (s_val s) = false
    | _, _ => True
    end.
  Fixpoint plain (e : fexp A) : Prop :=
    match e with
    | ERead _ _ _ | ECreate _ _ | ECast _ => True
    | EUn u e => plain e /\ plain_use u e
    | EBin _ l r => plain l /\ plain r
    | EIf _ _ t e => plain t /\ plain e
    end.
End spec.
