(** Model of lib/core/include/scipp/core/element/map_to_bins.h and [count_indices] of element/bin.h.
    An event is a target index (negative: dropped) and a value of one column (with its variance, if any). *)
From Verif Require Import Base Subbin_Model.

Section Kernel.
Context {A : Type}.

(** map_to_bins.h 19-34: the sequence of writes into the span of the output; [bins] are the positions to be written next. *)
Fixpoint map_direct (bins : list Z) (ev : list (Z * A)) : res (list (Z * A)) :=
  match ev with
  | [] => Ok []
  | (t, a) :: ev' =>
    if t <? 0 then map_direct bins ev'
    else do c <- vget bins t; do bins' <- vset bins t (c + 1); do w <- map_direct bins' ev'; Ok ((c, a) :: w)
  end.

(** 55-75: events of a block are appended to the buffer of their chunk, as value and index inside the chunk. *)
Fixpoint to_chunks (chunksize : Z) (chunks : list (list (Z * A))) (ev : list (Z * A)) : res (list (list (Z * A))) :=
  match ev with
  | [] => Ok chunks
  | (t, a) :: ev' =>
    if t <? 0 then to_chunks chunksize chunks ev'
    else do c <- vget chunks (Z.quot t chunksize);
         do chunks' <- vset chunks (Z.quot t chunksize) (c ++ [(Z.rem t chunksize, a)]);
         to_chunks chunksize chunks' ev'
  end.
(** 76-90: the chunks are emptied one after the other. *)
Fixpoint emit (bins : list Z) (ev : list (Z * A)) : res (list Z * list (Z * A)) :=
  match ev with
  | [] => Ok (bins, [])
  | (t, a) :: ev' => do c <- vget bins t; do bins' <- vset bins t (c + 1); do r <- emit bins' ev'; Ok (fst r, (c, a) :: snd r)
  end.
Fixpoint emit_chunks (chunksize i_chunk : Z) (bins : list Z) (chunks : list (list (Z * A))) : res (list Z * list (Z * A)) :=
  match chunks with
  | [] => Ok (bins, [])
  | c :: chunks' =>
    do r <- emit bins (map (fun e => (chunksize * i_chunk + fst e, snd e)) c);
    do r' <- emit_chunks chunksize (i_chunk + 1) (fst r) chunks';
    Ok (fst r', snd r ++ snd r')
  end.
(** 38-92: blocks of [8 * bins] events. *)
Fixpoint map_chunkwise (fuel : nat) (chunksize : Z) (bins : list Z) (ev : list (Z * A)) : res (list (Z * A)) :=
  match ev, fuel with
  | [], _ => Ok []
  | _ :: _, O => Ub
  | _ :: _, S fuel' =>
    let block := Z.to_nat (8 * zlen bins) in
    do chunks <- to_chunks chunksize (repeat [] (Z.to_nat (Z.quot (zlen bins - 1) chunksize + 1))) (firstn block ev);
    do r <- emit_chunks chunksize 0 bins chunks;
    do w <- map_chunkwise fuel' chunksize (fst r) (skipn block ev);
    Ok (snd r ++ w)
  end.

(** 113-137 *)
Definition map_kernel (offsets : subbin) (ev : list (Z * A)) : res (list (Z * A)) :=
  let bins := ss offsets in
  let n := zlen bins in
  if (n >? 512) && (n * 4 <? zlen ev)
  then let chunksize := if n <=? 128 * 128 then 128 else if n <=? 256 * 256 then 256 else if n <=? 512 * 512 then 512 else 1024 in
       map_chunkwise (S (length ev)) chunksize bins ev
  else map_direct bins ev.

(** element/bin.h 196-202 *)
Fixpoint count_loop (counts : list Z) (ev : list (Z * A)) : res (list Z) :=
  match ev with
  | [] => Ok counts
  | (t, _) :: ev' => if t >=? 0 then do c <- vget counts t; do counts' <- vset counts t (c + 1); count_loop counts' ev' else count_loop counts ev'
  end.
Definition count_indices (ev : list (Z * A)) (offset nbin : Z) : res subbin :=
  if nbin <? 0 then Throw RuntimeError                                   (* [std::length_error] *)
  else do c <- count_loop (repeat 0 (Z.to_nat nbin)) ev; sb_make offset c.
End Kernel.
