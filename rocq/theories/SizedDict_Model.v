(** Model of the dictionaries of coords, masks and attributes (lib/dataset/sized_dict.cpp,
    lib/dataset/include/scipp/dataset/sized_dict.h) and of the parts of [DataArray] that combine them
    (lib/dataset/data_array.cpp). Keys are numbers, for dimension labels as well as for names of masks. *)
From Verif Require Import Base Map_Model Dims_Model View_Model.

(** An item: a [Variable] given by its buffer (identity of [m_object]), its view of it, the flag [m_aligned] and
    whether it is binned. *)
Record item := mkitem { i_obj : Z; i_var : var; i_aligned : bool; i_bins : bool }.
Definition i_dims (i : item) : sizes := v_dims (i_var i).
Definition with_var (i : item) (v : var) : item := mkitem (i_obj i) v (i_aligned i) (i_bins i).
Definition with_aligned (i : item) (b : bool) : item := mkitem (i_obj i) (i_var i) b (i_bins i).

(** variable.cpp 292-296 *)
Definition is_same (a b : item) : bool :=
  dims_eqb (i_dims a) (i_dims b) && list_eqb (v_strides (i_var a)) (v_strides (i_var b)) &&
  (v_offset (i_var a) =? v_offset (i_var b)) && (i_obj a =? i_obj b).

(** sized_dict.h 157-159: [m_sizes], [m_items], [m_readonly]. *)
Record sdict := mksd { sd_sizes : sizes; sd_items : vmap Z item; sd_readonly : bool }.

Definition sd_contains (d : sdict) (k : Z) : bool := mcontains Z.eqb (sd_items d) k.
(** sized_dict.cpp 155-160 *)
Definition sd_at (d : sdict) (k : Z) : res item := mat Z.eqb NotFoundError (sd_items d) k.

(** sized_dict.cpp 236-247: the first dimension that may be that of bin edges is treated as if it were not. *)
Fixpoint relax (sz dims : sizes) (ls : list Dim) : res sizes :=
  match ls with
  | [] => Ok dims
  | l :: ls' =>
    do n <- dat dims l;
    if negb (dcontains sz l) && (n =? 2) then merase Z.eqb dims l
    else do m <- dat sz l;
         if n =? m + 1 then sizes_resize dims l m else relax sz dims ls'
  end.

(** sized_dict.cpp 220-250. [VariableError] is [RuntimeError]. *)
Definition sd_set (d : sdict) (k : Z) (it : item) : res sdict :=
  do same <- (if sd_contains d k then do old <- sd_at d k; Ok (is_same old it) else Ok false);
  if same then Ok d
  else if sd_readonly d then Throw DataArrayError
  else if i_bins it then Throw RuntimeError
  else
    do dims <- relax (sd_sizes d) (i_dims it) (labels (i_dims it));
    do ok <- includes (sd_sizes d) dims;
    if ok then do m <- dinsert_or_assign Z.eqb (sd_items d) k it; Ok (mksd (sd_sizes d) m (sd_readonly d))
    else Throw DimensionError.

(** sized_dict.cpp 257-261 *)
Definition sd_extract (d : sdict) (k : Z) : res (item * sdict) :=
  if sd_readonly d then Throw DataArrayError
  else do r <- dextract Z.eqb (sd_items d) k; Ok (fst r, mksd (sd_sizes d) (snd r) (sd_readonly d)).
Definition sd_erase (d : sdict) (k : Z) : res sdict := do r <- sd_extract d k; Ok (snd r).

(** sized_dict.cpp 66-74: constructor from sizes and items. *)
Fixpoint sd_set_all (d : sdict) (l : list (Z * item)) : res sdict :=
  match l with
  | [] => Ok d
  | (k, it) :: l' => do d' <- sd_set d k it; sd_set_all d' l'
  end.
Definition sd_make (sz : sizes) (items : vmap Z item) (readonly : bool) : res sdict :=
  do d <- sd_set_all (mksd sz mempty false) (ditems items);
  Ok (mksd (sd_sizes d) (sd_items d) readonly).

(** sized_dict.cpp 21-40 *)
Fixpoint merge_sizes_loop (target s : sizes) (ls : list Dim) : res sizes :=
  match ls with
  | [] => Ok target
  | l :: ls' =>
    do b <- dat s l;
    do t <- (if dcontains target l
             then do a <- dat target l;
                  if a =? b + 1 then sizes_resize target l b
                  else if a + 1 =? b then Ok target
                  else if a =? b then Ok target else Throw DimensionError
             else sizes_set target l b);
    merge_sizes_loop t s ls'
  end.
(** sized_dict.cpp 42-50, 76-79: sizes deduced from the items. *)
Fixpoint auto_sizes (target : sizes) (l : list (Z * item)) : res sizes :=
  match l with
  | [] => Ok target
  | (_, it) :: l' => do t <- merge_sizes_loop target (i_dims it) (labels (i_dims it)); auto_sizes t l'
  end.
Definition sd_make_auto (items : vmap Z item) (readonly : bool) : res sdict :=
  do sz <- auto_sizes mempty (ditems items); sd_make sz items readonly.

(** sized_dict.cpp 81-83: copies are writable. *)
Definition sd_copy (d : sdict) : sdict := mksd (sd_sizes d) (sd_items d) false.

(** sized_dict.cpp 201-205 *)
Definition sd_set_sizes (d : sdict) (sz : sizes) : res sdict :=
  do ok <- includes sz (sd_sizes d);
  if ok then Ok (mksd sz (sd_items d) (sd_readonly d)) else Throw DimensionError.

(** sized_dict.h 17-43: the slice of one item. *)
Definition slice_item (sz : sizes) (it : item) (s : slice) : res item :=
  if dcontains (i_dims it) (s_dim s)
  then
    do n <- dat (i_dims it) (s_dim s);
    do m <- dat sz (s_dim s);
    if n =? m then do v <- var_slice (i_var it) s; Ok (with_var it v)
    else if negb (s_stride s =? 1) then Throw SliceError
    else
      let e := if s_end s =? -1 then s_begin s + 2
               else if s_begin s =? s_end s then s_end s else s_end s + 1 in
      do es <- slice_range (s_dim s) (s_begin s) e 1;
      do v <- var_slice (i_var it) es; Ok (with_var it v)
  else if slice_eqb s slice_default then Ok it
  else Ok (with_var it (var_as_const (i_var it))).
Fixpoint slice_map_loop (sz : sizes) (out : vmap Z item) (l : list (Z * item)) (s : slice) : res (vmap Z item) :=
  match l with
  | [] => Ok out
  | (k, it) :: l' => do it' <- slice_item sz it s; do out' <- dinsert_or_assign Z.eqb out k it';
                     slice_map_loop sz out' l' s
  end.
Definition slice_map (sz : sizes) (items : vmap Z item) (s : slice) : res (vmap Z item) :=
  slice_map_loop sz mempty (ditems items) s.

(** sized_dict.cpp 272-276 *)
Definition sd_slice (d : sdict) (s : slice) : res sdict :=
  do sz <- sizes_slice (sd_sizes d) s;
  do items <- slice_map (sd_sizes d) (sd_items d) s;
  sd_make sz items true.

(** sized_dict.cpp 184-199 (keys are dimension labels) *)
Fixpoint first_edge (sz dims : sizes) (ls : list Dim) : res (option Dim) :=
  match ls with
  | [] => Ok None
  | l :: ls' => do e <- is_edges sz dims l; if e : bool then Ok (Some l) else first_edge sz dims ls'
  end.
Definition dim_of (d : sdict) (k : Dim) : res Dim :=
  do it <- sd_at d k;
  if ndim (i_dims it) =? 0 then Ok InvalidDim
  else if ndim (i_dims it) =? 1 then Ok (dims_inner (i_dims it))
  else
    do e <- first_edge (sd_sizes d) (i_dims it) (labels (i_dims it));
    match e with
    | Some l => Ok l
    | None => if dcontains (i_dims it) k then Ok k else Ok InvalidDim
    end.

(** sized_dict.cpp 279-286 *)
Definition unaligned_by_slice (d : sdict) (k : Z) (it : item) (s : slice) : res bool :=
  if slice_eqb s slice_default || negb (s_end s =? -1) then Ok false
  else if dcontains (i_dims it) (s_dim s) then do x <- dim_of d k; Ok (x =? s_dim s) else Ok false.

(** sized_dict.cpp 418-422 *)
Definition sd_set_aligned (d : sdict) (k : Z) (b : bool) : res sdict :=
  if sd_readonly d then Throw DataArrayError
  else do it <- sd_at d k;
       do m <- dinsert_or_assign Z.eqb (sd_items d) k (with_aligned it b);
       Ok (mksd (sd_sizes d) m (sd_readonly d)).

(** sized_dict.cpp 289-299 *)
Fixpoint unalign_loop (d out : sdict) (l : list (Z * item)) (s : slice) : res sdict :=
  match l with
  | [] => Ok out
  | (k, it) :: l' =>
    do u <- unaligned_by_slice d k it s;
    do out' <- (if u : bool then sd_set_aligned out k false else Ok out);
    unalign_loop d out' l' s
  end.
Definition sd_slice_coords (d : sdict) (s : slice) : res sdict :=
  do c <- sd_slice d s;
  do c' <- unalign_loop d (mksd (sd_sizes c) (sd_items c) false) (ditems (sd_items d)) s;
  Ok (mksd (sd_sizes c') (sd_items c') true).

(** sized_dict.cpp 336-357 *)
Definition rename_clash (sz : sizes) (it : item) (names : list (Dim * Dim)) : bool :=
  existsb (fun r => negb (dcontains sz (snd r)) && dcontains (i_dims it) (snd r)) names.
Fixpoint rename_items (sz : sizes) (l : list (Z * item)) (names : list (Dim * Dim)) : res (list item) :=
  match l with
  | [] => Ok []
  | (_, it) :: l' =>
    if rename_clash sz it names then Throw DimensionError
    else do v <- var_rename (i_var it) names false;
         do r <- rename_items sz l' names; Ok (with_var it v :: r)
  end.
Definition sd_rename (d : sdict) (names : list (Dim * Dim)) (fail_on_unknown : bool) : res sdict :=
  do sz <- rename_dims (sd_sizes d) names fail_on_unknown;
  do vs <- rename_items (sd_sizes d) (ditems (sd_items d)) names;
  Ok (mksd sz (mkmap (m_keys (sd_items d)) vs) false).

(** sized_dict.cpp 371-379 *)
Definition sd_as_const (d : sdict) : res sdict :=
  sd_make (sd_sizes d)
    (mkmap (m_keys (sd_items d)) (map (fun it => with_var it (var_as_const (i_var it))) (m_values (sd_items d)))) true.

(** sized_dict.cpp 381-400 *)
Fixpoint merge_from_loop (out : sdict) (l : list (Z * item)) : res sdict :=
  match l with
  | [] => Ok out
  | (k, it) :: l' => if sd_contains out k then Throw DataArrayError
                     else do o <- sd_set out k it; merge_from_loop o l'
  end.
Definition sd_merge_from (d other : sdict) : res sdict :=
  do o <- merge_from_loop (sd_copy d) (ditems (sd_items other));
  Ok (mksd (sd_sizes o) (sd_items o) (sd_readonly d)).

(** Operations on a dictionary. Slicing, renaming and [as_const] replace it by the result. A call that throws leaves
    the dictionary as it was: all checks precede the modification. *)
Inductive sd_op :=
| SdSet (k : Z) (it : item) | SdErase (k : Z) | SdSlice (s : slice) | SdSliceCoords (s : slice)
| SdRename (names : list (Dim * Dim)) (fail_on_unknown : bool) | SdSetSizes (sz : sizes)
| SdSetAligned (k : Z) (b : bool) | SdMerge (other : sdict) | SdConst | SdCopy.
Definition sd_step (d : sdict) (o : sd_op) : res sdict :=
  match o with
  | SdSet k it => sd_set d k it
  | SdErase k => sd_erase d k
  | SdSlice s => sd_slice d s
  | SdSliceCoords s => sd_slice_coords d s
  | SdRename n f => sd_rename d n f
  | SdSetSizes sz => sd_set_sizes d sz
  | SdSetAligned k b => sd_set_aligned d k b
  | SdMerge other => sd_merge_from d other
  | SdConst => sd_as_const d
  | SdCopy => Ok (sd_copy d)
  end.
(** ** DataArray *)
Record darray := mkda { da_data : item; da_coords : sdict; da_masks : sdict; da_attrs : sdict; da_readonly : bool }.

(** data_array.cpp 35-45: the dictionaries get the sizes of the data. *)
Definition da_make (data : item) (coords masks attrs : sdict) : res darray :=
  do c <- sd_set_sizes coords (i_dims data);
  do m <- sd_set_sizes masks (i_dims data);
  do a <- sd_set_sizes attrs (i_dims data);
  Ok (mkda data c m a false).

(** data_array.cpp 129-134 *)
Definition da_slice (a : darray) (s : slice) : res darray :=
  do v <- var_slice (i_var (da_data a)) s;
  do c <- sd_slice_coords (da_coords a) s;
  do m <- sd_slice (da_masks a) s;
  do t <- sd_slice (da_attrs a) s;
  do o <- da_make (with_var (da_data a) v) c m t;
  Ok (mkda (da_data o) (da_coords o) (da_masks o) (da_attrs o) true).

(** data_array.cpp 209-215 *)
Definition da_rename (a : darray) (names : list (Dim * Dim)) (fail_on_unknown : bool) : res darray :=
  do v <- var_rename (i_var (da_data a)) names fail_on_unknown;
  do c <- sd_rename (da_coords a) names false;
  do m <- sd_rename (da_masks a) names false;
  do t <- sd_rename (da_attrs a) names false;
  da_make (with_var (da_data a) v) c m t.
