(** Model of the tensors: src/runtime/local/datastructures/Tensor.h, ContiguousTensor.h and ChunkedTensor.h.
    Simplifications: sizes, products of sizes and positions are below 2^64 (so they do not wrap around) and below 2^63 where the code uses int64_t; a new array
    contains arbitrary elements ([junk]); the state of asynchronous reads is not modelled, apart from what happens to the elements when a read has succeeded;
    an index list with fewer entries than the tensor has dimensions is read outside of its bounds (UB), additional entries are ignored as in the code. *)
From stdpp Require Import base numbers list list_numbers.
From Verif Require Import CppBase.

(** * Arithmetic on indices *)
(** Tensor.h 33-42: the product of the extents *)
Definition count (shape : list nat) : nat := foldr Nat.mul 1 shape.
(** ContiguousTensor.h 57-70, ChunkedTensor.h 116-131, 148: strides[0] = a; strides[i] = strides[i - 1] * shape[i - 1] *)
Fixpoint strides_from (a : nat) (shape : list nat) : list nat := match shape with [] => [] | d :: ds => a :: strides_from (a * d) ds end.
Definition strides : list nat -> list nat := strides_from 1.
(** The loops that take a number apart, last dimension first: ids[j] = tmp / strides[j]; tmp = tmp % strides[j] (ContiguousTensor.h 325-330 and the same in ChunkedTensor.h) *)
Fixpoint unlin (ss : list nat) (tmp : nat) : list nat * nat :=
  match ss with [] => ([], tmp) | s :: ss' => let '(ids, t) := unlin ss' tmp in (t / s :: ids, t mod s) end.
Definition ids_of (ss : list nat) (i : nat) : list nat := fst (unlin ss i).
(** The sum of the products of indices and strides *)
Definition sum_prod (ids ss : list nat) : nat := foldr Nat.add 0 (zip_with Nat.mul ids ss).
Definition all_below (ids shape : list nat) : bool := forallb id (zip_with Nat.ltb ids shape).
(** A range of indices, the upper bound exclusive; the code subtracts one from the upper bound. If it is zero, that gives the largest number of type size_t,
    which no check below accepts. ContiguousTensor.h 299-306, ChunkedTensor.h 446-453, 1005-1012 *)
Definition range_ok (r : nat * nat) (d : nat) : bool := negb (snd r =? 0) && negb (d <=? fst r) && negb (d <=? snd r - 1) && negb (snd r - 1 <? fst r).
Definition ranges_ok (rs : list (nat * nat)) (shape : list nat) : bool := forallb id (zip_with range_ok rs shape).
Definition extent (r : nat * nat) : nat := snd r - 1 - fst r + 1.

Section tensor.
Context {V : Type}.

(** * ContiguousTensor.h *)
Record cont := mkC { c_shape : list nat; c_strides : list nat; c_data : list V }.
Definition has_zero (shape : list nat) : bool := existsb (fun d => d =? 0) shape.
(** 53-99, 126-183: creating a tensor, here with the elements [data] *)
Definition cont_new (shape : list nat) (data : list V) : outcome cont := if has_zero shape then Throw else Ok (mkC shape (strides shape) data).
(** 116-124: from a dense matrix (or a view of one: its elements start at [off]), without copying *)
Definition cont_of_dense (nr nc skip off : nat) (data : list V) : outcome cont :=
  if has_zero [nc; nr] then Throw else Ok (mkC [nc; nr] [1; skip] (drop off data)).
(** 218-221, 231-235: the position of an element; strides[0] is not used *)
Definition cont_lin (ids ss : list nat) : nat := match ids, ss with i :: is, _ :: ss' => i + sum_prod is ss' | _, _ => 0 end.
(** 226-236: get *)
Definition cont_get (t : cont) (ids : list nat) : outcome V :=
  match c_shape t with [] => rd (c_data t) 0 | _ => if length ids <? length (c_shape t) then UB else rd (c_data t) (cont_lin (take (length (c_shape t)) ids) (c_strides t)) end.
(** 203-224: tryGet *)
Definition cont_tryGet (t : cont) (ids : list nat) : outcome (option V) :=
  if negb (length ids =? length (c_shape t)) then Ok None else
  match c_shape t with
  | [] => let* v := rd (c_data t) 0 in Ok (Some v)
  | _ => if all_below ids (c_shape t) then let* v := rd (c_data t) (cont_lin ids (c_strides t)) in Ok (Some v) else Ok None
  end.
(** 238-256: trySet; a tensor without dimensions cannot be set *)
Definition cont_trySet (t : cont) (ids : list nat) (v : V) : outcome (bool * cont) :=
  if negb (length ids =? length (c_shape t)) || (length (c_shape t) =? 0) then Ok (false, t) else
  if all_below ids (c_shape t) then let* d := wr (c_data t) (cont_lin ids (c_strides t)) v in Ok (true, mkC (c_shape t) (c_strides t) d) else Ok (false, t).
(** 186-193: operator==, by the bytes of the elements *)
Fixpoint mem_eq (beq : V -> V -> bool) (n : nat) (a b : list V) : outcome bool :=
  match n with 0 => Ok true | S n' => match a, b with x :: a', y :: b' => if beq x y then mem_eq beq n' a' b' else Ok false | _, _ => UB end end.
Definition cont_eq (beq : V -> V -> bool) (t u : cont) : outcome bool :=
  if bool_decide (c_shape t = c_shape u) then mem_eq beq (count (c_shape t)) (c_data t) (c_data u) else Ok false.
(** 292-337: tryDice; [junk]: the new array *)
Definition cont_dice (junk : list V) (t : cont) (rs : list (nat * nat)) : outcome (option cont) :=
  if negb (length rs =? length (c_shape t)) then Ok None else
  if ranges_ok rs (c_shape t) then
    let shape := extent <$> rs in
    let* new := cont_new shape junk in
    let* d := for_up 0 (count shape) (fun i d => let* v := cont_get t (zip_with Nat.add (ids_of (c_strides new) i) (fst <$> rs)) in wr d i v) junk in
    Ok (Some (mkC shape (c_strides new) d))
  else Ok None.
(** 340-348: reduceRank; the loop runs to the old rank, and skips the dimension behind a removed one. Reading tensor_shape behind its end is undefined behaviour. *)
Fixpoint reduce_loop (fuel i : nat) (shape ss : list nat) : outcome (list nat * list nat) :=
  match fuel with
  | 0 => Ok (shape, ss)
  | S fuel' => match shape !! i with
               | None => UB
               | Some d => if d =? 1 then reduce_loop fuel' (S i) (delete i shape) (delete i ss) else reduce_loop fuel' (S i) shape ss
               end
  end.
Definition cont_reduce (t : cont) : outcome cont := let* (sh, ss) := reduce_loop (length (c_shape t)) 0 (c_shape t) (c_strides t) in Ok (mkC sh ss (c_data t)).

(** * ChunkedTensor.h *)
Record ct := mkT { t_shape : list nat; t_chunk : list nat; t_elems : nat; t_cstr : list nat; t_istr : list nat; t_cpd : list nat; t_ccount : nat; t_flags : list bool; t_data : list V }.
Definition rank (t : ct) : nat := length (t_shape t).
(** 141-143: the number of chunks per dimension *)
Definition ceil (d c : nat) : nat := if d mod c =? 0 then d / c else d / c + 1.
(** 110-151: the constructor, apart from the elements and flags. A chunk shape of another length than the shape is not modelled (UB). *)
Definition chunked_new (shape chunk : list nat) (flag : bool) (junk : list V) : outcome ct :=
  if negb (length chunk =? length shape) then UB else
  if has_zero shape || has_zero chunk then Throw else
  let cpd := zip_with ceil shape chunk in
  let elems := count chunk in
  Ok (mkT shape chunk elems (strides_from elems cpd) (strides chunk) cpd (count cpd) (replicate (count cpd) flag) junk).
Definition chunked_size (shape chunk : list nat) : nat := count (zip_with ceil shape chunk) * count chunk.
Definition with_data (t : ct) (fl : list bool) (d : list V) : ct := mkT (t_shape t) (t_chunk t) (t_elems t) (t_cstr t) (t_istr t) (t_cpd t) (t_ccount t) fl d.
(** 361-372: getLinearId (the first stride inside of a chunk is 1) *)
Definition lin_id (t : ct) (ids : list nat) : nat := sum_prod (zip_with Nat.modulo ids (t_chunk t)) (t_istr t) + sum_prod (zip_with Nat.div ids (t_chunk t)) (t_cstr t).
(** 374-380, 604-609: getLinearIdFromChunkIds, getPtrToChunk *)
Definition chunk_pos (t : ct) (cids : list nat) : nat := sum_prod cids (t_cstr t).
(** 382-401: getChunkIdsFromLinearChunkId; for a tensor without dimensions it writes to an empty vector *)
Definition chunk_ids (t : ct) (k : nat) : outcome (list nat) := if rank t =? 0 then UB else Ok (ids_of (strides (t_cpd t)) k).
(** 403-425: getLinearChunkIdFromChunkIds *)
Definition chunk_no (t : ct) (cids : list nat) : nat := sum_prod cids (strides (t_cpd t)).
(** 427-435: getChunkIdsFromIds *)
Definition chunk_of (t : ct) (ids : list nat) : list nat := zip_with Nat.div ids (t_chunk t).
Definition need (t : ct) (ids : list nat) : outcome (list nat) := if length ids <? rank t then UB else Ok (take (rank t) ids).
(** 562-564, 566-568: IsValueMaterialized, IsChunkMaterialized *)
Definition value_there (t : ct) (ids : list nat) : outcome bool := let* ids := need t ids in rd (t_flags t) (chunk_no t (chunk_of t ids)).
Definition chunk_there (t : ct) (cids : list nat) : outcome bool := let* cids := need t cids in rd (t_flags t) (chunk_no t cids).
(** 613-619: get *)
Definition get (t : ct) (ids : list nat) : outcome V := if rank t =? 0 then rd (t_data t) 0 else let* ids := need t ids in rd (t_data t) (lin_id t ids).
(** 592-611: tryGet; whether the chunk is there is looked up before the bounds are checked *)
Definition tryGet (t : ct) (ids : list nat) : outcome (option V) :=
  if negb (length ids =? rank t) then Ok None else
  if rank t =? 0 then let* v := rd (t_data t) 0 in Ok (Some v) else
  let* m := value_there t ids in
  if negb m then Ok None else
  if all_below ids (t_shape t) then let* v := rd (t_data t) (lin_id t ids) in Ok (Some v) else Ok None.
(** 714-722: set; there is no return for tensors without dimensions, whose first index is then read *)
Definition set (t : ct) (ids : list nat) (v : V) : outcome ct :=
  if rank t =? 0 then UB else
  let* ids := need t ids in
  let* d := wr (t_data t) (lin_id t ids) v in
  let* fl := wr (t_flags t) (chunk_no t (chunk_of t ids)) true in
  Ok (with_data t fl d).
(** 692-712: trySet *)
Definition trySet (t : ct) (ids : list nat) (v : V) : outcome (bool * ct) :=
  if negb (length ids =? rank t) then Ok (false, t) else
  if rank t =? 0 then let* d := wr (t_data t) 0 v in Ok (true, with_data t (t_flags t) d) else
  if all_below ids (t_shape t) then let* t' := set t ids v in Ok (true, t') else Ok (false, t).
(** memcpy of a chunk *)
Definition blit (d : list V) (l : nat) (vs : list V) : outcome (list V) := if l + length vs <=? length d then Ok (take l d ++ vs ++ drop (l + length vs) d) else UB.
Definition grab (d : list V) (l n : nat) : outcome (list V) := if l + n <=? length d then Ok (take n (drop l d)) else UB.
(** 724-746: trySetChunk; the chunk indices are compared with the extents of the tensor, not with the number of chunks. [values]: as many elements as a chunk has *)
Definition trySetChunk (t : ct) (cids : list nat) (values : list V) : outcome (bool * ct) :=
  if negb (length cids =? rank t) then Ok (false, t) else
  if rank t =? 0 then let* v := rd values 0 in let* d := wr (t_data t) 0 v in Ok (true, with_data t (t_flags t) d) else
  if all_below cids (t_shape t) then
    let* vs := grab values 0 (t_elems t) in
    let* d := blit (t_data t) (chunk_pos t cids) vs in
    let* fl := wr (t_flags t) (chunk_no t cids) true in
    Ok (true, with_data t fl d)
  else Ok (false, t).
(** 655-682: tryGetChunk *)
Definition tryGetChunk (t : ct) (cids : list nat) : outcome (option (list V)) :=
  if negb (length cids =? rank t) then Ok None else
  if rank t =? 0 then let* v := rd (t_data t) 0 in Ok (Some [v]) else
  if all_below cids (t_cpd t) then
    let* m := chunk_there t cids in
    if m then let* vs := grab (t_data t) (chunk_pos t cids) (t_elems t) in Ok (Some vs) else Ok None
  else Ok None.
(** 187-216: creating a tensor whose elements are numbered; [num]: the conversion of the number *)
Definition chunked_iota (num : nat -> V) (shape chunk : list nat) (junk : list V) : outcome ct :=
  let* t := chunked_new shape chunk true junk in
  if rank t =? 0 then let* d := wr (t_data t) 0 (num 0) in Ok (with_data t (t_flags t) d) else
  for_up 0 (count shape) (fun i t => set t (ids_of (strides shape) i) (num i)) t.
(** 171-177: all elements zero *)
Definition chunked_fill (v : V) (shape chunk : list nat) : outcome ct := chunked_new shape chunk true (replicate (chunked_size shape chunk) v).
(** 282-331: from a contiguous tensor, with one chunk; the elements are copied as they are stored *)
Definition chunked_of_cont (c : cont) : outcome ct :=
  let n := count (c_shape c) in
  if has_zero (c_shape c) then Throw else
  let* d := grab (c_data c) 0 n in
  Ok (mkT (c_shape c) (c_shape c) n (replicate (length (c_shape c)) n) (strides (c_shape c)) (replicate (length (c_shape c)) 1) 1 [true] d).
(** 243-280: from a dense matrix: the first statement reads the chunk shape, which is still empty *)
Definition chunked_of_dense (nr nc cx cy : nat) (data : list V) : outcome ct := if nc =? 0 then Throw else UB.

(** 438-465: GetChunkRangeFromIdRange *)
Definition chunk_range (t : ct) (rs : list (nat * nat)) : option (list (nat * nat)) :=
  if negb (length rs =? rank t) then None else
  if ranges_ok rs (t_shape t) then Some (zip_with (fun r c => (fst r / c, 1 + (snd r - 1) / c)) rs (t_chunk t)) else None.
(** 498-516, 543-558: the list of the chunks between the first ones [los], with [cnts] chunks per dimension *)
Definition chunk_list (los cnts : list nat) : list (list nat) := (fun i => zip_with Nat.add los (ids_of (strides cnts) i)) <$> seq 0 (count cnts).
(** 467-517: GetChunkListFromIdRange *)
Definition chunks_for (t : ct) (rs : list (nat * nat)) : option (list (list nat)) :=
  if negb (length rs =? rank t) then None else if rank t =? 0 then None else
  if ranges_ok rs (t_shape t) then
    Some (chunk_list (zip_with (fun r c => fst r / c) rs (t_chunk t)) (zip_with (fun r c => (snd r - 1) / c - fst r / c + 1) rs (t_chunk t)))
  else None.
(** 519-560: GetChunkListFromChunkRange *)
Definition chunks_in (t : ct) (rs : list (nat * nat)) : option (list (list nat)) :=
  if negb (length rs =? rank t) then None else if rank t =? 0 then None else
  if ranges_ok rs (t_cpd t) then Some (chunk_list (fst <$> rs) (extent <$> rs)) else None.

(** 794-898: tryRechunk. The flags stay as they are. A new chunk shape that contains a zero divides by zero (UB). *)
Definition rechunk_elem (t new : ct) (cids : list nat) (off j : nat) (d : list V) : outcome (list V) :=
  let ids := zip_with Nat.add (ids_of (t_istr t) j) (zip_with Nat.mul cids (t_chunk t)) in
  if all_below ids (t_shape t) then let* v := rd (t_data t) (off + j) in wr d (lin_id new ids) v else Ok d.
Definition tryRechunk (junk : list V) (t : ct) (chunk : list nat) : outcome (bool * ct) :=
  if negb (length chunk =? rank t) then Ok (false, t) else
  if negb (t_ccount t <=? length (t_flags t)) then UB else
  if negb (forallb id (take (t_ccount t) (t_flags t))) then Ok (false, t) else
  if rank t =? 0 then Ok (true, t) else
  if has_zero chunk then UB else
  let cpd := zip_with ceil (t_shape t) chunk in
  let new := mkT (t_shape t) chunk (count chunk) (strides_from (count chunk) cpd) (strides chunk) cpd (count cpd) (t_flags t) junk in
  let* d := for_up 0 (t_ccount t) (fun i d =>
    let cids := ids_of (strides (t_cpd t)) i in
    for_up 0 (t_elems t) (fun j d => rechunk_elem t new cids (chunk_pos t cids) j d) d) junk in
  Ok (true, with_data new (t_flags t) d).

(** The check that all chunks of a list are there: 924-951, 1014-1043, 1118-1149 *)
Fixpoint all_there (t : ct) (l : list (list nat)) : outcome bool :=
  match l with [] => Ok true | c :: l' => let* m := chunk_there t c in if m then all_there t l' else Ok false end.
Definition dice_chunks (t : ct) (rs : list (nat * nat)) : list (list nat) :=
  chunk_list (zip_with (fun r c => fst r / c) rs (t_chunk t)) (zip_with (fun r c => (snd r - 1) / c - fst r / c + 1) rs (t_chunk t)).
(** 1099-1180: tryDiceToContiguousTensor *)
Definition dice_cont (junk : list V) (t : ct) (rs : list (nat * nat)) : outcome (option cont) :=
  if negb (length rs =? rank t) then Ok None else
  if rank t =? 0 then let* v := rd (t_data t) 0 in let* d := wr junk 0 v in Ok (Some (mkC [] [] d)) else
  if negb (ranges_ok rs (t_shape t)) then Ok None else
  let* m := all_there t (dice_chunks t rs) in
  if negb m then Ok None else
  let shape := extent <$> rs in
  let* new := cont_new shape junk in
  let* d := for_up 0 (count shape) (fun i d =>
    let ids := ids_of (c_strides new) i in let* v := get t (zip_with Nat.add ids (fst <$> rs)) in wr d (cont_lin ids (c_strides new)) v) junk in
  Ok (Some (mkC shape (c_strides new) d)).
(** 990-1097: tryDice. The element indices of a chunk are computed with the distance of the chunks in memory (chunk_strides), where it takes the extents of the chunk. *)
Definition dice_elem (t new : ct) (rs : list (nat * nat)) (cids : list nat) (j : nat) (u : ct) : outcome ct :=
  let ids := zip_with Nat.add (ids_of (t_istr new) j) (zip_with Nat.mul cids (t_cstr new)) in
  if all_below ids (t_shape new) then let* v := get t (zip_with Nat.add ids (fst <$> rs)) in set u ids v else Ok u.
Definition tryDice (junk : list V) (t : ct) (rs : list (nat * nat)) (chunk : list nat) : outcome (option ct) :=
  if negb (length rs =? rank t) || negb (length chunk =? rank t) then Ok None else
  if rank t =? 0 then let* new := chunked_new [] [] false junk in let* v := rd (t_data t) 0 in let* d := wr junk 0 v in Ok (Some (with_data new (t_flags new) d)) else
  if negb (ranges_ok rs (t_shape t)) then Ok None else
  let* m := all_there t (dice_chunks t rs) in
  if negb m then Ok None else
  let* new := chunked_new (extent <$> rs) chunk true junk in
  let* u := for_up 0 (t_ccount new) (fun i u =>
    let cids := ids_of (strides (t_cpd new)) i in
    for_up 0 (t_elems new) (fun j u => dice_elem t new rs cids j u) u) new in
  Ok (Some u).
(** 902-988: tryDiceAtChunkLvl. It also looks up the flags of the chunks with the numbers of each range (959-965) and sets the flags of the old tensor (984).
    The result: the new tensor and the old one with its flags *)
Fixpoint flags_at (t : ct) (l : list nat) : outcome bool := match l with [] => Ok true | j :: l' => let* m := rd (t_flags t) j in if m then flags_at t l' else Ok false end.
Definition tryDiceChunks (junk : list V) (t : ct) (rs : list (nat * nat)) : outcome (option ct * ct) :=
  if negb (length rs =? rank t) then Ok (None, t) else
  if rank t =? 0 then let* new := chunked_new [] [] false junk in let* v := rd (t_data t) 0 in let* d := wr junk 0 v in let* fl := wr (t_flags t) 0 true in Ok (Some (with_data new (t_flags new) d), with_data t fl (t_data t)) else
  if negb (ranges_ok rs (t_cpd t)) then Ok (None, t) else
  let* m := all_there t (chunk_list (fst <$> rs) (extent <$> rs)) in
  if negb m then Ok (None, t) else
  let* m := flags_at t (rs ≫= fun r => seq (fst r) (extent r)) in
  if negb m then Ok (None, t) else
  let* new := chunked_new (zip_with (fun r c => extent r * c) rs (t_chunk t)) (t_chunk t) false junk in
  let* (d, fl) := for_up 0 (t_ccount new) (fun i st => let '(d, fl) := st in
    let cids := ids_of (strides (t_cpd new)) i in
    let* vs := grab (t_data t) (chunk_pos t (zip_with Nat.add cids (fst <$> rs))) (t_elems t) in
    let* d := blit d (chunk_pos new cids) vs in
    let* fl := wr fl (chunk_no t cids) true in
    Ok (d, fl)) (junk, t_flags t) in
  Ok (Some (with_data new (t_flags new) d), with_data t fl (t_data t)).

(** 332-358: operator== *)
Definition chunked_eq (beq : V -> V -> bool) (t u : ct) : outcome bool :=
  if negb (bool_decide (t_shape t = t_shape u) && bool_decide (t_chunk t = t_chunk u)) then Ok false else
  let* same := for_up 0 (t_ccount t) (fun i b => if negb b then Ok false else let* x := rd (t_flags t) i in let* y := rd (t_flags u) i in Ok (Bool.eqb x y)) true in
  if negb same then Ok false else
  for_up 0 (t_ccount t) (fun i b =>
    if negb b then Ok false else
    let* x := rd (t_flags t) i in
    if negb x then Ok false else
    let* cids := chunk_ids t i in
    let* vs := grab (t_data t) (chunk_pos t cids) (t_elems t) in
    let* ws := grab (t_data u) (chunk_pos u cids) (t_elems t) in
    mem_eq beq (t_elems t) vs ws) true.
(** 1253-1287: areLogicalElementsEqual; [veq]: operator== of the elements *)
Definition same_elems (veq : V -> V -> bool) (c : cont) (t : ct) : outcome bool :=
  if negb (bool_decide (c_shape c = t_shape t)) then Ok false else
  let* fl := for_up 0 (t_ccount t) (fun i b => if negb b then Ok false else rd (t_flags t) i) true in
  if negb fl then Ok false else
  if rank t =? 0 then UB else
  for_up 0 (count (t_shape t)) (fun i b =>
    if negb b then Ok false else
    let ids := ids_of (strides (t_shape t)) i in
    let* x := cont_get c ids in let* y := get t ids in Ok (veq x y)) true.
End tensor.
Arguments cont : clear implicits.
Arguments ct : clear implicits.

(** 38-45: ReverseArray, which shall reverse the bytes of every element ([size] bytes each) when a read of foreign byte order has succeeded (575-589).
    Byte [j] of an element goes to position [size - j], where it takes [size - 1 - j]; for the last element that is behind the array. *)
Definition reverse_array (size n : nat) (bytes : list nat) : outcome (list nat) :=
  for_up 0 n (fun i b =>
    let tmp := take size (drop (i * size) b) in
    for_up 0 size (fun j b => let* x := rd tmp j in wr b (i * size + size - j) x) b) bytes.
