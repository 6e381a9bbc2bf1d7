(** What tensors are: maps from index lists to elements. *)
From stdpp Require Import base numbers list list_numbers.
From Verif Require Import CppBase TensorModel.

(** The indices of a tensor with the given extents *)
Definition inside (ids shape : list nat) : Prop := Forall2 lt ids shape.
Global Instance inside_dec ids shape : Decision (inside ids shape). Proof. unfold inside. apply _. Defined.
(** The number of an element if they are counted with the first index changing fastest *)
Fixpoint number (shape ids : list nat) : nat := match shape, ids with d :: ds, i :: is => i + d * number ds is | _, _ => 0 end.
(** The chunk an element belongs to, its place in the chunk, and back *)
Definition chunk_index (chunk ids : list nat) : list nat := zip_with Nat.div ids chunk.
Definition place (chunk ids : list nat) : list nat := zip_with Nat.modulo ids chunk.
Definition global (chunk cids m : list nat) : list nat := zip_with Nat.add m (zip_with Nat.mul cids chunk).
(** [ids] is in the ranges [rs] *)
Definition in_ranges (ids : list nat) (rs : list (nat * nat)) : Prop := Forall2 (fun i r => fst r <= i < snd r) ids rs.
(** The ranges are not empty and inside of the tensor. *)
Definition proper_ranges (rs : list (nat * nat)) (shape : list nat) : Prop := Forall2 (fun r d => fst r < snd r <= d) rs shape.
Definition size_of (r : nat * nat) : nat := snd r - fst r.
(** The element that has the index [ids] in the part of a tensor given by [rs] *)
Definition shifted (ids : list nat) (rs : list (nat * nat)) : list nat := zip_with (fun i r => i + fst r) ids rs.
(** The distance of the chunks in memory is as good as their extent: one chunk per dimension, or equal. *)
Definition aligned (cpd cstr chunk : list nat) : Prop := Forall2 (fun (p : nat * nat) c => fst p = 1 \/ snd p = c) (zip cpd cstr) chunk.

Section spec.
Context {V : Type}.
(** A chunked tensor as it is made and kept by its operations: *)
Record good (t : ct V) : Prop := {
  g_len : length (t_chunk t) = length (t_shape t);
  g_shape : Forall (fun d => 0 < d) (t_shape t);
  g_chunk : Forall (fun d => 0 < d) (t_chunk t);
  g_cpd : t_cpd t = zip_with ceil (t_shape t) (t_chunk t);
  g_elems : t_elems t = count (t_chunk t);
  g_cstr : t_cstr t = strides_from (count (t_chunk t)) (t_cpd t);
  g_istr : t_istr t = strides (t_chunk t);
  g_ccount : t_ccount t = count (t_cpd t);
  g_data : length (t_data t) = t_ccount t * t_elems t;
}.
(** ... and it knows for each chunk if it is there. *)
Definition tracked (t : ct V) : Prop := length (t_flags t) = t_ccount t.
Definition present (t : ct V) (cids : list nat) : Prop := t_flags t !! chunk_no t cids = Some true.
(** All chunks are there. *)
Definition complete (t : ct V) : Prop := forall cids, inside cids (t_cpd t) -> present t cids.
(** The elements of the tensor *)
Definition shows (t : ct V) (f : list nat -> V) : Prop := forall ids, inside ids (t_shape t) -> get t ids = Ok (f ids).
Definition cont_shows (c : cont V) (f : list nat -> V) : Prop := forall ids, inside ids (c_shape c) -> cont_get c ids = Ok (f ids) /\ cont_tryGet c ids = Ok (Some (f ids)).

(** A contiguous tensor as it is made, without gaps between the elements *)
Definition fresh (c : cont V) : Prop := Forall (fun d => 0 < d) (c_shape c) /\ c_strides c = strides (c_shape c) /\ length (c_data c) = count (c_shape c).

(** Histories of writes: *)
Inductive write := Set_ (ids : list nat) (v : V) | SetChunk (cids : list nat) (vs : list V).
Definition run1 (t : ct V) (w : write) : outcome (bool * ct V) := match w with Set_ ids v => trySet t ids v | SetChunk cids vs => trySetChunk t cids vs end.
Fixpoint runs (t : ct V) (ws : list write) : outcome (list bool * ct V) :=
  match ws with [] => Ok ([], t) | w :: ws' => let* (b, t') := run1 t w in let* (bs, t'') := runs t' ws' in Ok (b :: bs, t'') end.
(** Which writes are accepted; chunks have to be inside of the tensor and complete. *)
Definition accepts (shape chunk : list nat) (w : write) : bool :=
  match w with Set_ ids v => bool_decide (inside ids shape) | SetChunk cids vs => bool_decide (inside cids (zip_with ceil shape chunk)) end.
Definition legal (shape chunk : list nat) (w : write) : Prop :=
  match w with Set_ _ _ => True | SetChunk cids vs => inside cids (zip_with ceil shape chunk) /\ length vs = count chunk end.
(** What a write does to the element [ids], if it does anything: *)
Definition effect (shape chunk : list nat) (ids : list nat) (w : write) : option V :=
  match w with
  | Set_ ids' v => if bool_decide (ids' = ids) then Some v else None
  | SetChunk cids vs => if bool_decide (chunk_index chunk ids = cids) then vs !! number chunk (place chunk ids) else None
  end.
Fixpoint last_effect (shape chunk ids : list nat) (ws : list write) : option V :=
  match ws with [] => None | w :: ws' => match last_effect shape chunk ids ws' with Some v => Some v | None => effect shape chunk ids w end end.
(** The write concerns the chunk of the element. *)
Definition touches (shape chunk : list nat) (ids : list nat) (w : write) : Prop :=
  match w with Set_ ids' _ => inside ids' shape /\ chunk_index chunk ids' = chunk_index chunk ids | SetChunk cids _ => cids = chunk_index chunk ids end.
End spec.
Arguments write : clear implicits.
