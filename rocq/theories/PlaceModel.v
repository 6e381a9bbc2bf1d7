(** Model of the copies of a dense matrix in several memories: MetaDataObject.cpp, DataPlacement.h, DenseMatrix.cpp 66-222 (getValuesInternal),
    DenseMatrix.h 221-249 (getValues), AllocationDescriptorCUDA.h (host and devices). The contents of one memory are one value of type [D].
    Not modelled: ranges (always null here), failing allocations and transfers, other objects (the counter of the ids is shared with them),
    concurrent calls. Pointers are used before the next call. *)
From stdpp Require Import base numbers list.
From Verif Require Import CppBase.

(** ALLOCATION_TYPE HOST, or GPU_CUDA with a device (AllocationDescriptorCUDA.h 64-68 compares type and device) *)
Inductive place := Host | Dev (d : nat).
Global Instance place_eq_dec : EqDecision place.
Proof. solve_decision. Defined.

Section model.
  Context {D : Type}.
  (** DataPlacement.h 29-40; [pl_mem] is the memory of a device (the descriptor of the host has none). *)
  Record placement := mkPl { pl_id : nat; pl_place : place; pl_mem : D }.
  (** DenseMatrix.h values, MetaDataObject.h data_placements, latest_version, DataPlacement.cpp instance_count *)
  Record mat := mkMat { m_host : option D; m_pls : list placement; m_latest : list nat; m_next : nat }.
  Context (junk : D).                                                         (* contents of fresh memory *)
  (** MetaDataObject.cpp 20-24 addDataPlacement *)
  Definition add_pl (m : mat) (p : place) (x : D) : mat := mkMat (m_host m) (m_pls m ++ [mkPl (m_next m) p x]) (m_latest m) (m_next m + 1).
  (** 50-59 getDataPlacementByID *)
  Definition by_id (m : mat) (i : nat) : option placement := snd <$> list_find (fun q => pl_id q = i) (m_pls m).
  (** 61-76 findDataPlacementByType *)
  Definition by_place (m : mat) (p : place) : option placement := snd <$> list_find (fun q => pl_place q = p) (m_pls m).
  Definition set_host (m : mat) (x : D) : mat := mkMat (Some x) (m_pls m) (m_latest m) (m_next m).
  (** a write to the memory of the placement with this id *)
  Definition set_mem (m : mat) (i : nat) (x : D) : mat :=
    mkMat (m_host m) (map (fun q => if decide (pl_id q = i) then mkPl i (pl_place q) x else q) (m_pls m)) (m_latest m) (m_next m).
  (** DenseMatrix.cpp 67-87: a new matrix with contents [x] in host memory or on a device *)
  Definition create (p : place) (x : D) : mat :=
    match p with Host => mkMat (Some x) [mkPl 0 Host junk] [0] 1 | Dev d => mkMat None [mkPl 0 (Dev d) x] [0] 1 end.
  (** 142-157, 188-207: the search in the latest versions; the placement visited last, and whether it is in host memory *)
  Fixpoint scan (m : mat) (ids : list nat) (acc : option placement) : outcome (option placement * bool) :=
    match ids with
    | [] => Ok (acc, false)
    | i :: ids => match by_id m i with None => UB | Some q => if decide (pl_place q = Host) then Ok (Some q, true) else scan m ids (Some q) end
    end.
  (** 161-168, 211-229: memory on the host, a placement for it, and the transfer (transferFrom of the host does nothing) *)
  Definition to_host (m : mat) (q : placement) : mat :=
    let m := match m_host m with None => set_host m junk | Some _ => m end in
    let m := add_pl m Host junk in
    if decide (pl_place q = Host) then m else set_host m (pl_mem q).
  Definition fetch (m : mat) (s : option placement * bool) : mat :=
    match s with (Some q, true) => match m_host m with Some _ => m | None => to_host m q end | (Some q, false) => to_host m q | (None, _) => m end.
  (** 183-234 getValuesInternal without a descriptor; the result: is latest, id *)
  Definition get_host (m : mat) : outcome (mat * bool * nat) :=
    let* s := scan m (m_latest m) None in
    match fst s with Some q => Ok (fetch m s, true, pl_id q) | None => Throw end.
  (** 128-181 for a device *)
  Definition get_dev (m : mat) (d : nat) : outcome (mat * bool * nat) :=
    match by_place m (Dev d) with
    | None =>
        let* s := scan m (m_latest m) None in
        let m := fetch m s in
        let i := m_next m in
        let m := add_pl m (Dev d) junk in
        match m_host m with None => Throw | Some x => Ok (set_mem m i x, false, i) end
    | Some q =>
        if decide (pl_id q ∈ m_latest m) then Ok (m, true, pl_id q)
        else match m_host m with None => Throw | Some x => Ok (set_mem m (pl_id q) x, false, pl_id q) end
    end.
  Definition get (m : mat) (p : place) := match p with Host => get_host m | Dev d => get_dev m d end.
  (** the memory the returned pointer points to *)
  Definition contents (m : mat) (p : place) (i : nat) : outcome D :=
    match p with Host => (match m_host m with Some x => Ok x | None => UB end) | Dev _ => match by_id m i with Some q => Ok (pl_mem q) | None => UB end end.
  Definition store (m : mat) (p : place) (i : nat) (x : D) : mat := match p with Host => set_host m x | Dev _ => set_mem m i x end.
  Definition with_latest (m : mat) (l : list nat) : mat := mkMat (m_host m) (m_pls m) l (m_next m).
  (** DenseMatrix.h 221-226: getValues for reading *)
  Definition read (m : mat) (p : place) : outcome (mat * D) :=
    let* g := get m p in
    let '(m, latest, i) := g in
    let m := if latest : bool then m else with_latest m (m_latest m ++ [i]) in
    let* x := contents m p i in Ok (m, x).
  (** 244-249: getValues for writing, and the write: the new contents may depend on the old ones *)
  Definition write (m : mat) (p : place) (f : D -> D) : outcome mat :=
    let* g := get m p in
    let '(m, latest, i) := g in
    let m := if latest : bool then m else with_latest m [i] in
    let* x := contents m p i in Ok (store m p i (f x)).
  Inductive op := Read (p : place) | Write (p : place) (f : D -> D).
  (** a history of accesses; the values that were read *)
  Fixpoint run (m : mat) (ops : list op) : outcome (mat * list D) :=
    match ops with
    | [] => Ok (m, [])
    | Read p :: ops => let* r := read m p in let* t := run (fst r) ops in Ok (fst t, snd r :: snd t)
    | Write p f :: ops => let* m := write m p f in run m ops
    end.
End model.
Arguments placement : clear implicits.
Arguments mat : clear implicits.
Arguments op : clear implicits.

(** DenseMatrix.cpp 98-115, 183-234 and DenseMatrix.h 253-255: get of a view (rows from [ro], columns from [co]) of a matrix with [skip] columns that
    is only in the memory [dev] of a device. The view shares the placements, whose range is null; bufferSize is not adapted as there are no values. *)
Definition view_get {V} (dev buf : list V) (skip ro co rows cols r c : nat) : outcome V :=
  if decide (rows <= r) then Throw else if decide (cols <= c) then Throw else
  let partial := bool_decide (rows * cols <> rows * skip) in                  (* isPartialBuffer *)
  let start := if partial then ro * skip + co else 0 in                       (* startAddress *)
  let* buf := for_up 0 (rows * cols) (fun i b => let* x := rd dev i in wr b (start + i) x) buf in
  rd buf (start + (r * (if partial then cols else skip) + c)).
