(** Model of [Slice], [Sizes], [Dimensions] and [Strides] (lib/core). *)
From Verif Require Import Base Map_Model.

(** [Dim::None], second enumerator of lib/units/include/scipp/units/dim.h 16-39. *)
Definition NoneDim : Dim := 1.

(** lib/core/include/scipp/core/slice.h 15-36 *)
Record slice := mkslice { s_dim : Dim; s_begin : Z; s_end : Z; s_stride : Z }.

(** slice.h 17: the default slice selects everything. *)
Definition slice_default : slice := mkslice NoneDim (-1) (-1) 1.

(** slice.cpp 13-17, 26-38: range constructor ([end = -1] marks a point slice). *)
Definition slice_range (d : Dim) (b e st : Z) : res slice :=
  if b <? 0 then Throw SliceError
  else if negb (e =? -1) && (b >? e) then Throw SliceError
  else if st =? 0 then Throw SliceError
  else if st <? 0 then Throw SliceError
  else Ok (mkslice d b e st).

(** slice.cpp 44-47: point constructor. *)
Definition slice_point (d : Dim) (b : Z) : res slice :=
  if b <? 0 then Throw SliceError else Ok (mkslice d b (-1) 1).

(** slice.cpp 49-52 *)
Definition slice_eqb (a b : slice) : bool :=
  (s_dim a =? s_dim b) && (s_begin a =? s_begin b) && (s_end a =? s_end b) && (s_stride a =? s_stride b).

(** slice.h 29 *)
Definition is_range (s : slice) : bool := negb (s_end s =? -1).

(** [Sizes] and [Dimensions] share their representation; [Dimensions] differ by operator== (ordered). *)
Definition sizes := vmap Dim Z.
Definition dcontains (d : sizes) (x : Dim) : bool := mcontains Z.eqb d x.
Definition dat (d : sizes) (x : Dim) : res Z := mat Z.eqb DimensionError d x.
Definition dindex (d : sizes) (x : Dim) : res Z := mindex Z.eqb DimensionError d x.
Definition labels (d : sizes) : list Dim := m_keys d.
Definition shape (d : sizes) : list Z := m_values d.
Definition ndim (d : sizes) : Z := zlen (labels d).

(** sizes.cpp 36-45: equality of [Sizes], insensitive to order. *)
Definition sizes_eqb (a b : sizes) : bool :=
  (zlen (m_keys a) =? zlen (m_keys b)) &&
  forallb (fun k => match dat a k, dat b k with Ok x, Ok y => dcontains b k && (x =? y) | _, _ => false end)
          (m_keys a).

(** lib/core/except.cpp 106-114 *)
Definition valid_dim (d : Dim) : res unit := if d =? InvalidDim then Throw DimensionError else Ok tt.
Definition valid_extent (n : Z) : res unit := if n <? 0 then Throw DimensionError else Ok tt.

(** sizes.cpp 129-138 *)
Definition sizes_set (m : sizes) (d : Dim) (n : Z) : res sizes :=
  do _ <- valid_dim d;
  do _ <- valid_extent n;
  do _ <- (if dcontains m d then do o <- dat m d; if o =? n then Ok tt else Throw DimensionError else Ok tt);
  if dcontains m d then Ok m else minsert_right Z.eqb m d n.

(** sizes.cpp 140-143 *)
Definition sizes_resize (m : sizes) (d : Dim) (n : Z) : res sizes :=
  do _ <- valid_extent n; massign Z.eqb m d n.

(** sizes.cpp 145-150. [at]/[operator\[\]] are only evaluated for contained labels. *)
Fixpoint includes_loop (m other : sizes) (ds : list Dim) : res bool :=
  match ds with
  | [] => Ok true
  | d :: ds' =>
    if dcontains m d
    then do x <- dat m d; do y <- dat other d; if x =? y then includes_loop m other ds' else Ok false
    else Ok false
  end.
Definition includes (m other : sizes) : res bool := includes_loop m other (m_keys other).

(** lib/core/except.cpp 97-104 *)
Definition valid_slice (m : sizes) (s : slice) : res unit :=
  if slice_eqb s slice_default then Ok tt
  else
    let e := if s_end s <? 0 then s_begin s + 1 else s_end s in
    if negb (dcontains m (s_dim s)) then Throw SliceError
    else do n <- dat m (s_dim s); if e >? n then Throw SliceError else Ok tt.

(** sizes.cpp 152-167. C++ integer division truncates; the stride is positive by construction and
    [end >= begin] for a range, so the division is exact on non-negative numbers; a zero divisor is UB. *)
Definition sizes_slice (m : sizes) (s : slice) : res sizes :=
  do _ <- valid_slice m s;
  if slice_eqb s slice_default then Ok m
  else if is_range s
       then if s_stride s =? 0 then Ub
            else let rem := if Z.rem (s_end s - s_begin s) (s_stride s) =? 0 then 0 else 1 in
                 sizes_resize m (s_dim s) (Z.max 0 (Z.quot (s_end s - s_begin s) (s_stride s) + rem))
       else merase Z.eqb m (s_dim s).

(** sizes.cpp 175-179 *)
Definition sizes_concat2 (a b : sizes) (d : Dim) : res sizes :=
  do out <- (if dcontains a d then do s <- slice_point d 0; sizes_slice a s else Ok a);
  do na <- (if dcontains a d then dat a d else Ok 1);
  do nb <- (if dcontains b d then dat b d else Ok 1);
  sizes_set out d (na + nb).

(** sizes.cpp 182-187 *)
Fixpoint sizes_concat_loop (out : sizes) (l : list sizes) (d : Dim) : res sizes :=
  match l with
  | [] => Ok out
  | b :: l' => do o <- sizes_concat2 out b d; sizes_concat_loop o l' d
  end.
Definition sizes_concat (l : list sizes) (d : Dim) : res sizes :=
  match l with [] => Ub | a :: l' => sizes_concat_loop a l' d end.

(** sizes.cpp 189-194 *)
Fixpoint sizes_merge_loop (out b : sizes) (ds : list Dim) : res sizes :=
  match ds with
  | [] => Ok out
  | d :: ds' => do n <- dat b d; do o <- sizes_set out d n; sizes_merge_loop o b ds'
  end.
Definition sizes_merge (a b : sizes) : res sizes := sizes_merge_loop a b (m_keys b).

(** sizes.cpp 196-212; [sz] are the sizes of the parent, [ds] those of the coord. *)
Fixpoint is_edges_loop (sz ds : sizes) (dim : Dim) (ls : list Dim) : res bool :=
  match ls with
  | [] => Ok true
  | d :: ls' =>
    if d =? dim then is_edges_loop sz ds dim ls'
    else if dcontains sz d
         then do x <- dat sz d; do y <- dat ds d; if x =? y then is_edges_loop sz ds dim ls' else Ok false
         else Ok false
  end.
Definition is_edges (sz ds : sizes) (dim : Dim) : res bool :=
  if (dim =? InvalidDim) || negb (dcontains ds dim) then Ok false
  else
    do ok <- (if msize sz =? 0 then Ok true else is_edges_loop sz ds dim (m_keys ds));
    if negb ok then Ok false
    else do n <- dat ds dim;
         do e <- (if dcontains sz dim then do x <- dat sz dim; Ok (x + 1) else Ok 2);
         Ok (n =? e).

(** lib/core/rename.h 17-30 *)
Fixpoint rename_dims (out : sizes) (names : list (Dim * Dim)) (fail_on_unknown : bool) : res sizes :=
  match names with
  | [] => Ok out
  | (f, t) :: names' =>
    if dcontains out f
    then do o <- mreplace_key Z.eqb out f t; rename_dims o names' fail_on_unknown
    else if fail_on_unknown then Throw DimensionError else rename_dims out names' fail_on_unknown
  end.

(** dimensions.h 36-46: ordered equality. *)
Fixpoint list_eqb (a b : list Z) : bool :=
  match a, b with
  | [], [] => true
  | x :: a', y :: b' => (x =? y) && list_eqb a' b'
  | _, _ => false
  end.
Definition dims_eqb (a b : sizes) : bool := list_eqb (shape a) (shape b) && list_eqb (labels a) (labels b).

(** dimensions.h 57-62 *)
Definition volume (d : sizes) : Z := fold_left Z.mul (shape d) 1.

(** dimensions.cpp 40-44 *)
Definition dims_add (m : sizes) (d : Dim) (n : Z) : res sizes :=
  do _ <- valid_dim d; do _ <- valid_extent n; minsert_left Z.eqb m d n.
(** dimensions.cpp 47-51 *)
Definition add_inner (m : sizes) (d : Dim) (n : Z) : res sizes :=
  do _ <- valid_dim d; do _ <- valid_extent n; minsert_right Z.eqb m d n.

(** dimensions.cpp 54-58 *)
Definition dims_inner (d : sizes) : Dim := last (labels d) InvalidDim.

(** dimensions.cpp 14-24: construction from labels and shape. *)
Fixpoint add_inner_all (m : sizes) (ls : list Dim) (ns : list Z) : res sizes :=
  match ls, ns with
  | l :: ls', n :: ns' => do m' <- add_inner m l n; add_inner_all m' ls' ns'
  | _, _ => Ok m
  end.
Definition make_dims (ls : list Dim) (ns : list Z) : res sizes :=
  if zlen ls =? zlen ns then add_inner_all mempty ls ns else Throw DimensionError.

(** dimensions.cpp 32-37 *)
Definition dims_offset (m : sizes) (d : Dim) : res Z :=
  do i <- dindex m d; Ok (fold_left Z.mul (skipn (S (Z.to_nat i)) (shape m)) 1).

(** dimensions.cpp 85-89: the inner [while] advancing the iterator [it] into [b]'s labels up to [dim]. *)
Fixpoint merge_advance (a b out : sizes) (it : list Dim) (dim : Dim) : res (sizes * list Dim) :=
  match it with
  | [] => Ok (out, [])
  | x :: it' =>
    if x =? dim then Ok (out, it)
    else do out' <- (if dcontains a x then Ok out else do n <- dat b x; add_inner out x n);
         merge_advance a b out' it' dim
  end.

(** dimensions.cpp 94-98 *)
Fixpoint merge_rest (a b out : sizes) (it : list Dim) : res sizes :=
  match it with
  | [] => Ok out
  | x :: it' =>
    do out' <- (if dcontains a x then Ok out else do n <- dat b x; add_inner out x n);
    merge_rest a b out' it'
  end.

(** dimensions.cpp 78-92 *)
Fixpoint merge_loop (a b out : sizes) (it : list Dim) (ds : list Dim) : res (sizes * list Dim) :=
  match ds with
  | [] => Ok (out, it)
  | dim :: ds' =>
    do r <- (if dcontains b dim
             then do x <- dat a dim; do y <- dat b dim;
                  if x =? y then merge_advance a b out it dim else Throw DimensionError
             else Ok (out, it));
    do n <- dat a dim;
    do out' <- add_inner (fst r) dim n;
    merge_loop a b out' (snd r) ds'
  end.

(** dimensions.cpp 74-100 *)
Definition dims_merge (a b : sizes) : res sizes :=
  do r <- merge_loop a b mempty (labels b) (labels a);
  merge_rest a b (fst r) (snd r).

(** dimensions.cpp 106-114 *)
Fixpoint inter_loop (a b m out : sizes) (ds : list Dim) : res sizes :=
  match ds with
  | [] => Ok out
  | d :: ds' =>
    do out' <- (if dcontains a d && dcontains b d then do n <- dat m d; add_inner out d n else Ok out);
    inter_loop a b m out' ds'
  end.
Definition dims_intersection (a b : sizes) : res sizes :=
  do m <- dims_merge a b; inter_loop a b m mempty (labels m).

(** dimensions.cpp 117-137 *)
Fixpoint lookup_all (d : sizes) (ls : list Dim) : res (list Z) :=
  match ls with
  | [] => Ok []
  | l :: ls' => do n <- dat d l; do ns <- lookup_all d ls'; Ok (n :: ns)
  end.
Definition transpose_impl (d : sizes) (ls : list Dim) : res sizes :=
  if zlen ls =? ndim d then do ns <- lookup_all d ls; make_dims ls ns else Throw DimensionError.
Definition dims_transpose (d : sizes) (ls : list Dim) : res sizes :=
  match ls with [] => transpose_impl d (rev (labels d)) | _ => transpose_impl d ls end.

(** dimensions.cpp 147-164 *)
Fixpoint fold_loop (old to out : sizes) (from : Dim) (ds : list Dim) : res sizes :=
  match ds with
  | [] => Ok out
  | d :: ds' =>
    do out' <- (if d =? from
                then do ns <- lookup_all to (labels to); add_inner_all out (labels to) ns
                else do n <- dat old d; add_inner out d n);
    fold_loop old to out' from ds'
  end.
Definition dims_fold (old : sizes) (from : Dim) (to : sizes) : res sizes :=
  if dcontains old from
  then do new <- fold_loop old to mempty from (labels old);
       if volume old =? volume new then Ok new else Throw DimensionError
  else Throw NotFoundError.

(** strides.cpp 15-22: row-major strides, filled from the back. *)
Fixpoint row_major (sh : list Z) : list Z * Z :=
  match sh with
  | [] => ([], 1)
  | n :: sh' => let (st, off) := row_major sh' in (off :: st, off * n)
  end.
Definition strides_of (d : sizes) : list Z := fst (row_major (shape d)).

(** strides.cpp 42-49: the strides are smuggled through [core::transpose] as extents of a copy of the
    dimensions ([resize] and [addInner] reject negative values). *)
Fixpoint strides_into (from : sizes) (ds : list Dim) (st : list Z) : res sizes :=
  match ds, st with
  | [], _ => Ok from
  | d :: ds', s :: st' => do f <- sizes_resize from d s; strides_into f ds' st'
  | _ :: _, [] => Ub
  end.
Definition strides_transpose (st : list Z) (from : sizes) (order : list Dim) : res (list Z) :=
  do f <- strides_into from (m_keys from) st;
  do f' <- dims_transpose f order;
  Ok (shape f').

(** lib/common/include/scipp/common/index_composition.h 23-32 *)
Fixpoint flat_index (strides indices : list Z) : Z :=
  match strides, indices with
  | s :: ss, i :: is_ => s * i + flat_index ss is_
  | _, _ => 0
  end.

(** index_composition.h 42-59 *)
Fixpoint memory_bounds_loop (sh st : list Z) (b e : Z) : Z * Z :=
  match sh, st with
  | n :: sh', s :: st' => if s <? 0 then memory_bounds_loop sh' st' (b + n * s) e
                          else memory_bounds_loop sh' st' b (e + n * s)
  | _, _ => (b, e)
  end.
Definition memory_bounds (sh st : list Z) : Z * Z :=
  match sh with [] => (0, 1) | _ => memory_bounds_loop sh st 0 0 end.

(** index_composition.h 93-111, column-major: the first dimension moves fastest. *)
Fixpoint extract_indices (flat : Z) (sh : list Z) : list Z :=
  match sh with
  | [] => [flat]
  | [_] => [flat]
  | n :: sh' => if n =? 0 then 0 :: extract_indices flat sh'
                else let aux := Z.quot flat n in (flat - aux * n) :: extract_indices aux sh'
  end.

(** The mutating members of [Sizes]/[Dimensions], for histories: sizes.cpp 84-138 (operations inherited
    from the map), 140-167; dimensions.cpp 40-51. *)
Inductive sz_op :=
| SzSet (d : Dim) (n : Z) | SzResize (d : Dim) (n : Z) | SzErase (d : Dim) | SzReplace (d d' : Dim)
| SzClear | SzAdd (d : Dim) (n : Z) | SzAddInner (d : Dim) (n : Z)
| SzSliceRange (d : Dim) (b e st : Z) | SzSlicePoint (d : Dim) (b : Z).
Definition sz_step (m : sizes) (o : sz_op) : res sizes :=
  match o with
  | SzSet d n => sizes_set m d n
  | SzResize d n => sizes_resize m d n
  | SzErase d => merase Z.eqb m d
  | SzReplace d d' => mreplace_key Z.eqb m d d'
  | SzClear => Ok (mclear m)
  | SzAdd d n => dims_add m d n
  | SzAddInner d n => add_inner m d n
  | SzSliceRange d b e st => do s <- slice_range d b e st; sizes_slice m s
  | SzSlicePoint d b => do s <- slice_point d b; sizes_slice m s
  end.
