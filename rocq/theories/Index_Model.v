(** Model of element iteration: [ViewIndex] (lib/core/view_index.cpp, include/scipp/core/view_index.h) and
    [MultiIndex] (lib/core/multi_index.cpp, include/scipp/core/multi_index.h).

    The fixed-size arrays of the classes ([NDIM_OP_MAX] = 6 entries, innermost dimension first) are lists.
    Where the C++ code indexes with a running [dim], the model recurses over the lists. *)
From Verif Require Import Base Dims_Model.

Definition NDIM_OP_MAX : nat := 6.

(** ** ViewIndex *)

(** One entry of [m_shape], [m_delta], [m_strides]. *)
Record ventry := mkventry { ve_shape : Z; ve_delta : Z; ve_stride : Z }.

(** view_index.cpp 11-35. [l] lists (size, stride) innermost first, i.e. in the order of the loop.
    [cur] is the entry at [dim_write - 1] (which may still grow), [None] if nothing was written. *)
Fixpoint vi_flatten (rewind : Z) (cur : option ventry) (l : list (Z * Z)) : res (list ventry) :=
  match l with
  | [] => Ok (match cur with Some e => [e] | None => [] end)
  | (size, stride) :: l' =>
    let delta := stride - rewind in
    if negb (delta =? 0) || (stride =? 0)
    then do r <- vi_flatten (size * stride) (Some (mkventry size delta stride)) l';
         Ok (match cur with Some e => e :: r | None => r end)
    else match cur with
         | None => Ub                                       (* m_shape[-1] *)
         | Some e => vi_flatten (size * stride) (Some (mkventry (ve_shape e * size) (ve_delta e) (ve_stride e))) l'
         end
  end.

(** view_index.h 62-76 *)
Record vindex := mkvindex {
  vi_mem : Z; vi_pos : Z;
  vi_coord : list Z; vi_shape : list Z; vi_delta : list Z; vi_strides : list Z;   (* 6 entries each *)
  vi_ndim : nat }.

Definition pad (l : list Z) (n : nat) : list Z := l ++ repeat 0 (n - length l).

(** view_index.cpp 11-35. Writing entry 6 of an array of 6 is undefined behaviour. *)
Definition vi_make (shape strides : list Z) : res vindex :=
  do es <- vi_flatten 0 None (rev (combine shape strides));
  if (NDIM_OP_MAX <? length es)%nat then Ub
  else Ok (mkvindex 0 0 (repeat 0 NDIM_OP_MAX) (pad (map ve_shape es) NDIM_OP_MAX)
             (pad (map ve_delta es) NDIM_OP_MAX) (pad (map ve_stride es) NDIM_OP_MAX) (length es)).

(** view_index.h 24-31; the list end realises [d < NDIM_OP_MAX - 1]. *)
Fixpoint vi_increment_outer (mem : Z) (coord shape delta : list Z) : Z * list Z :=
  match coord, shape, delta with
  | c :: (c1 :: cs) as rest, s :: ss, _ :: (d1 :: _) as ds =>
    if c =? s then let (m, r) := vi_increment_outer (mem + d1) (c1 + 1 :: cs) ss (tl delta) in (m, 0 :: r)
    else (mem, coord)
  | _, _, _ => (mem, coord)
  end.

(** view_index.h 32-38 *)
Definition vi_increment (v : vindex) : vindex :=
  let mem := vi_mem v + hd 0 (vi_delta v) in
  let coord := match vi_coord v with c :: cs => c + 1 :: cs | [] => [] end in
  let (mem', coord') :=
    if hd 0 coord =? hd 0 (vi_shape v) then vi_increment_outer mem coord (vi_shape v) (vi_delta v) else (mem, coord) in
  mkvindex mem' (vi_pos v + 1) coord' (vi_shape v) (vi_delta v) (vi_strides v) (vi_ndim v).

(** view_index.h 40-46: [extract_indices] writes [m_ndim] entries of [m_coord] (one if [m_ndim] = 0). *)
Definition vi_set_index (v : vindex) (k : Z) : vindex :=
  let digits := extract_indices k (firstn (vi_ndim v) (vi_shape v)) in
  let coord := digits ++ skipn (length digits) (vi_coord v) in
  mkvindex (flat_index (firstn (vi_ndim v) (vi_strides v)) coord) k
           coord (vi_shape v) (vi_delta v) (vi_strides v) (vi_ndim v).

(** element_array_view.h 119-124 with 26-61: [for (it = begin(); it != end(); ++it)]; the addresses relative to the
    offset. [end] is at view index [total]. Fuel bounds the number of rounds; running out of fuel is reported as
    [Ub] and excluded by the theorems. *)
Fixpoint vi_walk (fuel : nat) (v : vindex) (total : Z) : res (list Z) :=
  if vi_pos v =? total then Ok []
  else match fuel with
  | O => Ub
  | S fuel' => do r <- vi_walk fuel' (vi_increment v) total; Ok (vi_mem v :: r)
  end.

(** ** MultiIndex without bins *)

(** One iteration dimension: its size and its stride in every operand. *)
Record mentry := mkmentry { me_size : Z; me_strides : list Z }.

(** multi_index.cpp 67-71 [value_or_default]: missing strides count as zero. *)
Definition stride_at (i : nat) (st : list Z) : Z := nth i st 0.
Definition iter_entries (shape : list Z) (strides : list (list Z)) : list mentry :=
  map (fun i => mkmentry (nth i shape 0) (map (stride_at i) strides)) (seq 0 (length shape)).

(** multi_index.cpp 73-82: compares and then overwrites [strides_for_contiguous]. *)
Definition can_be_flattened (sfc : list Z) (e : mentry) : bool * list Z :=
  (list_eqb (me_strides e) sfc, map (Z.mul (me_size e)) (me_strides e)).

(** multi_index.cpp 84-123. [l] is the reversed list of dimensions (innermost first), [dim_read] the
    position of its head counted from the outside, [acc] the entries written so far, last one first.
    [&&] short-circuits: [can_be_flattened] is not evaluated for [dim_read <= non_flattenable] and not
    for the innermost dimension. [cap] is the capacity of the output span. *)
Fixpoint flatten_dims (cap : nat) (nonflat : Z) (sfc : list Z) (dim_read : Z) (l : list mentry) (acc : list mentry)
  : res (list mentry) :=
  match l with
  | [] => Ok (rev acc)
  | e :: l' =>
    if (cap <=? length acc)%nat then Throw RuntimeError
    else
      let (flat, sfc') :=
        if (dim_read >? nonflat) && negb (match acc with [] => true | _ => false end)
        then can_be_flattened sfc e else (false, sfc) in
      match flat, acc with
      | true, a :: acc' => flatten_dims cap nonflat sfc' (dim_read - 1) l' (mkmentry (me_size a * me_size e) (me_strides a) :: acc')
      | _, _ => flatten_dims cap nonflat sfc' (dim_read - 1) l' (e :: acc)
      end
  end.

(** multi_index.h 335-349 for the dense case. The lists hold the first max(1, m_ndim) entries of the
    arrays; further entries stay zero. *)
Record mindex := mkmindex { mi_data : list Z; mi_coord : list Z; mi_shape : list Z; mi_stride : list (list Z); mi_ndim : nat }.

Definition vadd (a b : list Z) : list Z := map (fun p => fst p + snd p) (combine a b).
Definition vscale (c : Z) (a : list Z) : list Z := map (Z.mul c) a.
Definition vzero (n : nat) : list Z := repeat 0 n.

Definition mi_of_entries (n : nat) (es : list mentry) : mindex :=
  match es with
  | [] => mkmindex (vzero n) [0] [0] [vzero n] 0
  | _ => mkmindex (vzero n) (repeat 0 (length es)) (map me_size es) (map me_strides es) (length es)
  end.

(** multi_index.cpp 126-132 *)
Definition mi_make (shape : list Z) (strides : list (list Z)) : res mindex :=
  let n := length strides in
  do es <- flatten_dims NDIM_OP_MAX 0 (vzero n) (zlen shape - 1) (rev (iter_entries shape strides)) [];
  Ok (mi_of_entries n es).

(** multi_index.h 180-182 *)
Definition at_end_dim (c s : Z) : bool := c =? Z.max s 1.

(** multi_index.h 194-209 with [end_dim] = index of the last list element. *)
Fixpoint carry (data : list Z) (coord shape : list Z) (stride : list (list Z)) : list Z * list Z :=
  match coord, shape, stride with
  | c :: (c1 :: cs), s :: ss, st :: ((st1 :: _) as sts) =>
    if at_end_dim c s
    then let (d, r) := carry (vadd data (vadd st1 (vscale (- c) st))) (c1 + 1 :: cs) ss sts in (d, 0 :: r)
    else (data, coord)
  | _, _, _ => (data, coord)
  end.

(** multi_index.h 71-77 (d = 1) and 79-86 *)
Definition mi_increment_by (m : mindex) (d : Z) : mindex :=
  let data := vadd (mi_data m) (vscale d (hd [] (mi_stride m))) in
  let coord := match mi_coord m with c :: cs => c + d :: cs | [] => [] end in
  let (data', coord') :=
    if at_end_dim (hd 0 coord) (hd 0 (mi_shape m)) then carry data coord (mi_shape m) (mi_stride m) else (data, coord) in
  mkmindex data' coord' (mi_shape m) (mi_stride m) (mi_ndim m).
Definition mi_increment (m : mindex) : mindex := mi_increment_by m 1.

(** multi_index.h 309-316: position in every operand. *)
Fixpoint flat_indices (n : nat) (coord : list Z) (stride : list (list Z)) : list Z :=
  match coord, stride with
  | c :: cs, st :: sts => vadd (vscale c st) (flat_indices n cs sts)
  | _, _ => vzero n
  end.

(** multi_index.h 104-113 *)
Definition mi_set_index (m : mindex) (k : Z) : mindex :=
  let n := length (mi_data m) in
  let coord := extract_indices k (firstn (mi_ndim m) (mi_shape m)) in
  mkmindex (flat_indices n coord (firstn (mi_ndim m) (mi_stride m))) coord (mi_shape m) (mi_stride m) (mi_ndim m).

(** multi_index.h 115-129 *)
Definition mi_set_to_end (m : mindex) : mindex :=
  let n := length (mi_data m) in
  let coord := match mi_ndim m with
               | O => [1]
               | S k => repeat 0 k ++ [last (mi_shape m) 0]
               end in
  mkmindex (flat_indices n coord (firstn (mi_ndim m) (mi_stride m))) coord (mi_shape m) (mi_stride m) (mi_ndim m).

(** multi_index.h 133-136 *)
Definition mi_eqb (a b : mindex) : bool := list_eqb (mi_coord a) (mi_coord b).

(** multi_index.h 142-153 with [first_dim] = 1 (entries beyond the lists are zero in both). *)
Definition mi_same_chunk (a b : mindex) : bool := list_eqb (tl (mi_coord a)) (tl (mi_coord b)).
(** multi_index.h 92-99 *)
Definition mi_dist_end (a : mindex) : Z := hd 0 (mi_shape a) - hd 0 (mi_coord a).
Definition mi_dist (a b : mindex) : Z := hd 0 (mi_coord b) - hd 0 (mi_coord a).

(** transform.h 192-224, 226-249: the positions (one per operand) at which the element operation is called,
    in order. The inner loop advances by [inner_strides] without touching the iterator. *)
Definition inner_positions (data : list Z) (st : list Z) (n : Z) : list (list Z) :=
  map (fun i => vadd data (vscale i st)) (zseq 0 (Z.to_nat n)).

(** transform.h 256-268 and 496-508: the [while] loop of one block. Fuel bounds the number of rounds; running
    out of fuel is reported as [Ub] and excluded by the theorems. *)
Fixpoint mi_run (fuel : nat) (m e : mindex) : res (list (list Z)) :=
  if mi_eqb m e then Ok []
  else match fuel with
  | O => Ub
  | S fuel' =>
    let n := if mi_same_chunk m e then mi_dist m e else mi_dist_end m in
    do r <- mi_run fuel' (mi_increment_by m (if n =? 0 then 1 else n)) e;
    Ok (inner_positions (mi_data m) (hd [] (mi_stride m)) n ++ r)
  end.

(** transform.h 270-276, 517-523: one block [b, e) of the parallel loop. *)
Definition mi_block (m : mindex) (b e : Z) : res (list (list Z)) :=
  mi_run (Z.to_nat (e - b)) (mi_set_index m b) (mi_set_index m e).

(** multi_index.h 171-177: does the output (operand 0) have a zero stride? *)
Definition mi_has_stride_zero (m : mindex) : bool :=
  existsb (fun st => hd 0 st =? 0) (firstn (mi_ndim m) (mi_stride m)).
