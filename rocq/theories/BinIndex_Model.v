(** Model of [MultiIndex] with bins (lib/core/multi_index.cpp, include/scipp/core/multi_index.h).

    The arrays [m_coord], [m_shape], [m_stride] hold the dimensions inside a bin (entries 0 to [m_inner_ndim] - 1)
    followed by the dimensions of the array of bins. The model stores the two segments as two [mindex] records
    (Index_Model.v): [bs_in] with [m_data_index] as its data, [bs_bins] with the [m_bin_index] of all operands as its
    data. For a scalar of bins the second segment has one coordinate, extent 0 and stride 0, as in C++ where the entry
    after the last dimension is used. *)
From Verif Require Import Base Dims_Model Index_Model.

(** multi_index.h 219-231 [BinIterator]: a dense operand, or the memory of (begin, end) pairs; [None] is [nullptr].
    Reading a pair where there is none is undefined behaviour. *)
Definition bin_memory := Z -> option (Z * Z).
Inductive bparam := Dense | Binned (ix : option bin_memory).

Record bstate := mkbs { bs_in : mindex; bs_bins : mindex; bs_nest : nat; bs_par : list bparam }.

Definition put_nth (i : nat) (x : Z) (l : list Z) : list Z := firstn i l ++ x :: skipn (S i) l.

(** multi_index.h 180-192: [dim_at_end] of the last dimension of a segment. *)
Definition last_at_end (m : mindex) : bool := at_end_dim (last (mi_coord m) 0) (last (mi_shape m) 0).
(** multi_index.h 184 *)
Definition bs_at_end (s : bstate) : bool := last_at_end (bs_bins s).
(** multi_index.h 215-217 *)
Definition bin_is_empty (s : bstate) : bool := nth (bs_nest s) (mi_shape (bs_in s)) 0 =? 0.

(** multi_index.h 263-280 for all operands, [j] being the number of the next one: new [m_data_index] and [m_shape]. *)
Fixpoint load_loop (s : bstate) (j : nat) (ps : list bparam) (data sh : list Z) : res (list Z * list Z) :=
  match ps with
  | [] => Ok ([], sh)
  | p :: ps' =>
    do r <- match p with
            | Dense =>
              let n := length (mi_data (bs_in s)) in
              Ok (nth j (flat_indices n (mi_coord (bs_in s)) (mi_stride (bs_in s))) 0 +
                  nth j (flat_indices n (mi_coord (bs_bins s)) (mi_stride (bs_bins s))) 0, sh)
            | Binned ixs =>
              if bs_at_end s then Ok (hd 0 data, sh)
              else match ixs with
                   | Some ix =>
                     match ix (nth j (mi_data (bs_bins s)) 0) with
                     | Some (b, e) => Ok (nth j (nth (bs_nest s) (mi_stride (bs_in s)) []) 0 * b, put_nth (bs_nest s) (e - b) sh)
                     | None => Ub
                     end
                   | None => Ok (0, put_nth (bs_nest s) 0 sh)
                   end
            end;
    do rest <- load_loop s (S j) ps' (tl data) (snd r);
    Ok (fst r :: fst rest, snd rest)
  end.
Definition load_bins (s : bstate) : res bstate :=
  do r <- load_loop s 0 (bs_par s) (mi_data (bs_in s)) (mi_shape (bs_in s));
  let i := bs_in s in
  Ok (mkbs (mkmindex (fst r) (mi_coord i) (snd r) (mi_stride i) (mi_ndim i)) (bs_bins s) (bs_nest s) (bs_par s)).

(** multi_index.h 318-323 *)
Definition zero_coords (m : mindex) : mindex :=
  mkmindex (mi_data m) (repeat 0 (length (mi_coord m))) (mi_shape m) (mi_stride m) (mi_ndim m).

(** multi_index.h 233-255: the loops over the bin dimensions are those of [mi_increment]. *)
Definition increment_bins (s : bstate) : res bstate :=
  let s' := mkbs (zero_coords (bs_in s)) (mi_increment (bs_bins s)) (bs_nest s) (bs_par s) in
  if bs_at_end s' then Ok s' else load_bins s'.

(** multi_index.h 257-261. Fuel bounds the number of rounds; running out of it is reported as [Ub] and excluded by
    the theorems. *)
Fixpoint seek_loop (fuel : nat) (s : bstate) : res bstate :=
  match fuel with
  | O => Ub
  | S fuel' => do s' <- increment_bins s;
               if bin_is_empty s' && negb (bs_at_end s') then seek_loop fuel' s' else Ok s'
  end.
Definition seek_fuel (s : bstate) : nat := S (Z.to_nat (fold_left Z.mul (map (Z.max 1) (mi_shape (bs_bins s))) 1)).
Definition seek_bin (s : bstate) : res bstate := seek_loop (seek_fuel s) s.

(** multi_index.h 300-307 for a scalar of bins, and 282-298. *)
Definition bi_set_index (s : bstate) (k : Z) : res bstate :=
  let b := bs_bins s in
  let bins := match mi_ndim b with
              | O => if k =? 0 then mi_set_index b k
                     else mkmindex (vzero (length (mi_data b))) [1] (mi_shape b) (mi_stride b) 0
              | _ => mi_set_index b k
              end in
  do s' <- load_bins (mkbs (zero_coords (bs_in s)) bins (bs_nest s) (bs_par s));
  if bin_is_empty s' && negb (bs_at_end s') then seek_bin s' else Ok s'.

(** multi_index.h 55-86 *)
Definition bi_increment_by (s : bstate) (d : Z) : res bstate :=
  let i := mi_increment_by (bs_in s) d in
  let s' := mkbs i (bs_bins s) (bs_nest s) (bs_par s) in
  if at_end_dim (hd 0 (mi_coord (bs_in s)) + d) (hd 0 (mi_shape (bs_in s))) && last_at_end i then seek_bin s' else Ok s'.
Definition bi_increment (s : bstate) : res bstate := bi_increment_by s 1.

(** multi_index.h 133-153: comparison of the whole coordinate, and of all but its first entry. *)
Definition bi_coord (s : bstate) : list Z := mi_coord (bs_in s) ++ mi_coord (bs_bins s).
Definition bi_eqb (a b : bstate) : bool := list_eqb (bi_coord a) (bi_coord b).
Definition bi_same_chunk (a b : bstate) : bool := list_eqb (tl (bi_coord a)) (tl (bi_coord b)).

(** transform.h 256-268, 496-508: positions at which the element operation is called. *)
Fixpoint bi_run (fuel : nat) (s e : bstate) : res (list (list Z)) :=
  if bi_eqb s e then Ok []
  else match fuel with
  | O => Ub
  | S fuel' =>
    let n := if bi_same_chunk s e then mi_dist (bs_in s) (bs_in e) else mi_dist_end (bs_in s) in
    do s' <- bi_increment_by s (if n =? 0 then 1 else n);
    do r <- bi_run fuel' s' e;
    Ok (inner_positions (mi_data (bs_in s)) (hd [] (mi_stride (bs_in s))) n ++ r)
  end.
(** transform.h 270-276, 517-523 *)
Definition bi_block (fuel : nat) (s : bstate) (b e : Z) : res (list (list Z)) :=
  do s1 <- bi_set_index s b; do s2 <- bi_set_index s e; bi_run fuel s1 s2.
(** transform.h 509-515: the serial loop starts from the constructed state. *)
Definition bi_serial (fuel : nat) (s : bstate) (e : Z) : res (list (list Z)) :=
  do s2 <- bi_set_index s e; bi_run fuel s s2.

(** An operand as seen by the constructor: the strides of its array of bins (or of its elements, if dense) and, if
    binned, the strides of its buffer and the memory of its (begin, end) pairs. *)
Record operand := mkoperand { op_strides : list Z; op_bins : option (list Z * bin_memory) }.

(** multi_index.cpp 19-38 *)
Fixpoint same_sizes_loop (fuel : nat) (m : mindex) (ix0 ix1 : bin_memory) : res unit :=
  match fuel with
  | O => Ok tt
  | S fuel' =>
    match ix0 (nth 0 (mi_data m) 0), ix1 (nth 1 (mi_data m) 0) with
    | Some (b0, e0), Some (b1, e1) =>
      if e0 - b0 =? e1 - b1 then same_sizes_loop fuel' (mi_increment m) ix0 ix1 else Throw BinnedDataError
    | _, _ => Ub
    end
  end.
Definition same_sizes (sh : list Z) (st0 : list Z) (ix0 : bin_memory) (st1 : list Z) (ix1 : bin_memory) : res unit :=
  do m <- mi_make sh [st0; st1]; same_sizes_loop (Z.to_nat (fold_left Z.mul sh 1)) m ix0 ix1.

(** multi_index.cpp 40-52 *)
Fixpoint validate_bins (sh : list Z) (p0 : operand) (ps : list operand) : res unit :=
  match ps with
  | [] => Ok tt
  | p1 :: ps' =>
    do _ <- match op_bins p0, op_bins p1 with
            | Some (_, ix0), Some (_, ix1) => same_sizes sh (op_strides p0) ix0 (op_strides p1) ix1
            | _, _ => Ok tt
            end;
    validate_bins sh (match op_bins p0 with Some _ => p0 | None => p1 end) ps'
  end.

Definition inner_strides (o : operand) : list Z := match op_bins o with Some (st, _) => st | None => [] end.
Definition bin_param (vol : Z) (o : operand) : bparam :=
  match op_bins o with
  | Some (_, ix) => Binned (if vol =? 0 then None else Some ix)
  | None => Dense
  end.

(** multi_index.cpp 134-165 with multi_index.h 28-38: [inner] is the shape of the buffers, [idx] the position of the
    dimension sliced by the bins, [sh] the shape of the array of bins. A scalar of bins makes [increment_bins] access
    [m_stride\[m_inner_ndim\]], which does not exist if all [NDIM_OP_MAX] entries are taken. *)
Definition bi_make (inner : list Z) (idx : nat) (sh : list Z) (ops : list operand) : res bstate :=
  do _ <- match ops with p0 :: ps => validate_bins sh p0 ps | [] => Ok tt end;
  let n := length ops in
  do ei <- flatten_dims NDIM_OP_MAX (Z.of_nat idx) (vzero n) (zlen inner - 1)
             (rev (iter_entries inner (map inner_strides ops))) [];
  do eb <- flatten_dims (NDIM_OP_MAX - length ei) 0 (vzero n) (zlen sh - 1) (rev (iter_entries sh (map op_strides ops))) [];
  if (NDIM_OP_MAX <=? length ei)%nat && (length eb =? 0)%nat then Ub
  else
    let vol := fold_left Z.mul sh 1 in
    do s <- load_bins (mkbs (mi_of_entries n ei) (mi_of_entries n eb) (length ei - idx - 1) (map (bin_param vol) ops));
    if bin_is_empty s || (vol =? 0) then seek_bin s else Ok s.
