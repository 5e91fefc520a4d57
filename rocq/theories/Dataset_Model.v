(** Model of the structure of datasets (lib/dataset/dataset.cpp, lib/dataset/include/scipp/dataset/dataset.h,
    lib/dataset/operations.cpp, lib/dataset/data_array.cpp 166-184): which items and coords there are, their shapes and
    the buffers they refer to. Names of items are numbers; the order of numbers stands for the order of strings. *)
From Verif Require Import Base Map_Model Dims_Model View_Model SizedDict_Model Equality_Model Union_Model.

(** dataset.h 238-243: [m_coords], [m_data], [m_readonly], [m_valid]. The data arrays in [m_data] have no coords. *)
Record dset := mkds { ds_coords : sdict; ds_data : vmap Z darray; ds_readonly : bool; ds_valid : bool }.
Definition ds_sizes (d : dset) : sizes := sd_sizes (ds_coords d).
Definition with_coords (d : dset) (c : sdict) : dset := mkds c (ds_data d) (ds_readonly d) (ds_valid d).
Definition with_data (d : dset) (m : vmap Z darray) : dset := mkds (ds_coords d) m (ds_readonly d) (ds_valid d).

(** dataset.cpp 45: the default constructor. *)
Definition ds_default : dset := mkds (mksd mempty mempty false) mempty false false.

(** The dataset after a call that throws before changing anything. *)
Definition commit (d : dset) (r : res dset) : dset * res unit :=
  match r with Ok d' => (d', Ok tt) | Throw e => (d, Throw e) | Ub => (d, Ub) end.

(** dataset.cpp 16-28 *)
Definition ds_check (d : dset) : res unit :=
  if ds_readonly d then Throw DatasetError else if ds_valid d then Ok tt else Throw DatasetError.

(** data_array.cpp 47-54 without coords, masks and attributes. *)
Definition da_plain (data : item) : darray :=
  mkda data (mksd (i_dims data) mempty false) (mksd (i_dims data) mempty false) (mksd (i_dims data) mempty false) false.

(** dataset.cpp 75-78 *)
Definition ds_clear (d : dset) : res dset := if ds_readonly d then Throw DatasetError else Ok (with_data d mempty).

(** dataset.cpp 80-84 *)
Definition ds_set_coords (d : dset) (other : sdict) : res dset :=
  if negb (ds_valid d) then Throw DatasetError
  else do ok <- includes (sd_sizes other) (ds_sizes d);
       if ok then Ok (with_coords d other) else Throw DimensionError.

(** dataset.cpp 111-115. [expect::contains] throws [NotFoundError]. *)
Definition ds_erase (d : dset) (k : Z) : res dset :=
  if ds_readonly d then Throw DatasetError
  else do r <- dextract Z.eqb (ds_data d) k; Ok (with_data d (snd r)).

(** sized_dict.cpp 402-408 *)
Definition item_applies_to (it : item) (dims : sizes) : bool := forallb (fun l => dcontains dims l) (labels (i_dims it)).
Fixpoint select_coords (dims : sizes) (out : vmap Z item) (l : list (Z * item)) : res (vmap Z item) :=
  match l with
  | [] => Ok out
  | (k, it) :: l' =>
    do out' <- (if item_applies_to it dims
                then dinsert_or_assign Z.eqb out k (with_var it (var_as_const (i_var it))) else Ok out);
    select_coords dims out' l'
  end.
(** data_array.cpp 166-184 *)
Definition view_with_coords (a : darray) (coords : sdict) (readonly : bool) : res darray :=
  do sel <- select_coords (i_dims (da_data a)) mempty (ditems (sd_items coords));
  do c <- sd_make (i_dims (da_data a)) sel true;
  Ok (mkda (da_data a) c (da_masks a) (da_attrs a) readonly).
(** dataset.cpp 127-130 *)
Definition ds_item (d : dset) (k : Z) : res darray :=
  do a <- mat Z.eqb NotFoundError (ds_data d) k; view_with_coords a (ds_coords d) (ds_readonly d).
(** dataset.cpp 120-124 *)
Definition ds_extract (d : dset) (k : Z) : res (darray * dset) := do a <- ds_item d k; do d' <- ds_erase d k; Ok (a, d').

(** dataset.cpp 133-137 *)
Definition ds_set_coord (d : dset) (k : Z) (it : item) : res dset :=
  do _ <- ds_check d; do c <- sd_set (ds_coords d) k it; Ok (with_coords d c).

(** dataset.cpp 144-156; [keep] is [AttrPolicy::Keep]. *)
Definition ds_set_var (keep : bool) (d : dset) (k : Z) (v : item) : res dset :=
  do _ <- ds_check d;
  if negb (sizes_eqb (ds_sizes d) (i_dims v)) then Throw DimensionError
  else
    do new <- (if mcontains Z.eqb (ds_data d) k && keep
               then do old <- mat Z.eqb NotFoundError (ds_data d) k;
                    do m <- sd_make (i_dims v) (sd_items (da_masks old)) false;
                    do t <- sd_make (i_dims v) (sd_items (da_attrs old)) false;
                    Ok (mkda v (mksd (i_dims v) mempty false) m t false)
               else Ok (da_plain v));
    do m <- dinsert_or_assign Z.eqb (ds_data d) k new;
    Ok (with_data d m).

(** dataset.cpp 169-180 *)
Fixpoint coords_to_skip (st : store) (d : dset) (l : list (Z * item)) : res (list Z) :=
  match l with
  | [] => Ok []
  | (k, it) :: l' =>
    do s <- (if sd_contains (ds_coords d) k
             then do dst <- sd_at (ds_coords d) k;
                  if Bool.eqb (i_aligned dst) (i_aligned it) then do _ <- matching_coord st it dst; Ok []
                  else if i_aligned dst then Ok [k] else Ok []
             else Ok []);
    do r <- coords_to_skip st d l'; Ok (s ++ r)
  end.
(** dataset.cpp 191-195 *)
Definition same_item (st : store) (d : dset) (k : Z) (a : darray) : res bool :=
  if mcontains Z.eqb (ds_data d) k
  then do it <- ds_item d k;
       if is_same (da_data it) (da_data a)
       then do m <- sd_compare st false (da_masks it) (da_masks a);
            if m : bool then
              do t <- sd_compare st false (da_attrs it) (da_attrs a);
              if t : bool then sd_compare st false (da_coords it) (da_coords a) else Ok false
            else Ok false
       else Ok false
  else Ok false.
(** dataset.cpp 200-203: the dataset is modified coord by coord. *)
Fixpoint add_coords (d : dset) (skip : list Z) (l : list (Z * item)) : dset * res unit :=
  match l with
  | [] => (d, Ok tt)
  | (k, it) :: l' =>
    if negb (sd_contains (ds_coords d) k) && negb (existsb (Z.eqb k) skip)
    then match ds_set_coord d k it with
         | Ok d' => add_coords d' skip l'
         | Throw e => (d, Throw e)
         | Ub => (d, Ub)
         end
    else add_coords d skip l'
  end.
(** dataset.cpp 207-208: assignment of dictionaries copies their read-only flag (sized_dict.cpp 90-92). *)
Definition set_meta (d : dset) (k : Z) (a : darray) : res dset :=
  do it <- mat Z.eqb NotFoundError (ds_data d) k;
  do m <- dinsert_or_assign Z.eqb (ds_data d) k (mkda (da_data it) (da_coords it) (da_masks a) (da_attrs a) (da_readonly it));
  Ok (with_data d m).
(** dataset.cpp 189-209 *)
Definition ds_set_da (st : store) (d : dset) (k : Z) (a : darray) : dset * res unit :=
  match same_item st d k a with
  | Ok true => (d, Ok tt)
  | Ok false =>
    match coords_to_skip st d (ditems (sd_items (da_coords a))) with
    | Ok skip =>
      match ds_set_var false d k (da_data a) with
      | Ok d1 =>
        match add_coords d1 skip (ditems (sd_items (da_coords a))) with
        | (d2, Ok _) => commit d2 (set_meta d2 k a)
        | r => r
        end
      | Throw e => (d, Throw e)
      | Ub => (d, Ub)
      end
    | Throw e => (d, Throw e)
    | Ub => (d, Ub)
    end
  | Throw e => (d, Throw e)
  | Ub => (d, Ub)
  end.

(** dataset.cpp 221-227: the first item of a default-constructed dataset sets its dimensions. *)
Definition ds_init (d : dset) (v : item) : res dset :=
  if ds_valid d then Ok d
  else do c <- sd_set_sizes (ds_coords d) (i_dims v); Ok (mkds c (ds_data d) (ds_readonly d) true).
Definition ds_set_da_init (st : store) (d : dset) (k : Z) (a : darray) : dset * res unit :=
  match ds_init d (da_data a) with Ok d' => ds_set_da st d' k a | Throw e => (d, Throw e) | Ub => (d, Ub) end.

(** The result of a sequence of [setData] in a constructor. *)
Definition result (r : dset * res unit) : res dset := match r with (d, Ok _) => Ok d | (_, Throw e) => Throw e | (_, Ub) => Ub end.
Fixpoint set_coord_all (d : dset) (l : list (Z * item)) : res dset :=
  match l with [] => Ok d | (k, it) :: l' => do d' <- ds_set_coord d k it; set_coord_all d' l' end.
Fixpoint set_da_all (st : store) (d : dset) (l : list (Z * darray)) : res dset :=
  match l with [] => Ok d | (k, a) :: l' => do d' <- result (ds_set_da st d k a); set_da_all st d' l' end.
(** dataset.h 62-89 *)
Definition ds_make (st : store) (l : list (Z * darray)) (coords : vmap Z item) : res dset :=
  match l with
  | [] => do c <- sd_make_auto coords false; Ok (mkds c mempty false true)
  | (_, a) :: _ =>
    do d <- set_coord_all (mkds (mksd (i_dims (da_data a)) mempty false) mempty false true) (ditems coords);
    set_da_all st d l
  end.

(** data_array.cpp 217-222 *)
Definition da_as_const (a : darray) : res darray :=
  do c <- sd_as_const (da_coords a); do m <- sd_as_const (da_masks a); do t <- sd_as_const (da_attrs a);
  do o <- da_make (with_var (da_data a) (var_as_const (i_var (da_data a)))) c m t;
  Ok (mkda (da_data o) (da_coords o) (da_masks o) (da_attrs o) true).
(** sized_dict.h 17-43 for data arrays *)
Definition slice_da (sz : sizes) (a : darray) (s : slice) : res darray :=
  if dcontains (i_dims (da_data a)) (s_dim s)
  then
    do n <- dat (i_dims (da_data a)) (s_dim s);
    do m <- dat sz (s_dim s);
    if n =? m then da_slice a s
    else if negb (s_stride s =? 1) then Throw SliceError
    else
      let e := if s_end s =? -1 then s_begin s + 2
               else if s_begin s =? s_end s then s_end s else s_end s + 1 in
      do es <- slice_range (s_dim s) (s_begin s) e 1;
      da_slice a es
  else if slice_eqb s slice_default then Ok a
  else da_as_const a.
Fixpoint slice_data (sz : sizes) (out : vmap Z darray) (l : list (Z * darray)) (s : slice) : res (vmap Z darray) :=
  match l with
  | [] => Ok out
  | (k, a) :: l' => do a' <- slice_da sz a s; do out' <- dinsert_or_assign Z.eqb out k a'; slice_data sz out' l' s
  end.
(** dataset.cpp 230-235 *)
Definition ds_slice (st : store) (d : dset) (s : slice) : res dset :=
  do items <- slice_data (ds_sizes d) mempty (ditems (ds_data d)) s;
  do out <- ds_make st (ditems items) mempty;
  do c <- sd_slice_coords (ds_coords d) s;
  Ok (mkds c (ds_data out) true (ds_valid out)).

(** dataset.cpp 266-272 *)
Fixpoint rename_data (st : store) (out : dset) (l : list (Z * darray)) (names : list (Dim * Dim)) : res dset :=
  match l with
  | [] => Ok out
  | (k, a) :: l' => do a' <- da_rename a names false; do out' <- result (ds_set_da st out k a'); rename_data st out' l' names
  end.
Definition ds_rename (st : store) (d : dset) (names : list (Dim * Dim)) : res dset :=
  do c <- sd_rename (ds_coords d) names true;
  rename_data st (mkds c mempty false true) (ditems (ds_data d)) names.

(** data_array.cpp 24-33, dataset.cpp 47-49: copies are writable. *)
Definition da_copy (a : darray) : darray := mkda (da_data a) (sd_copy (da_coords a)) (sd_copy (da_masks a)) (sd_copy (da_attrs a)) false.
Definition ds_copy (d : dset) : dset :=
  mkds (sd_copy (ds_coords d)) (mkmap (m_keys (ds_data d)) (map da_copy (m_values (ds_data d)))) false (ds_valid d).

(** operations.cpp 21-37: [std::map::emplace], sorted by name, existing entries are kept. *)
Fixpoint emplace (k : Z) (a : darray) (l : list (Z * darray)) : list (Z * darray) :=
  match l with
  | [] => [(k, a)]
  | (k', a') :: l' => if k <? k' then (k, a) :: l else if k' <? k then (k', a') :: emplace k a l' else l
  end.
Fixpoint ds_union_first (a : dset) (out : list (Z * darray)) (ks : list Z) : res (list (Z * darray)) :=
  match ks with [] => Ok out | k :: ks' => do it <- ds_item a k; ds_union_first a (emplace k it out) ks' end.
Fixpoint ds_union_second (st : store) (a b : dset) (out : list (Z * darray)) (ks : list Z) : res (list (Z * darray)) :=
  match ks with
  | [] => Ok out
  | k :: ks' =>
    do it <- ds_item b k;
    if mcontains Z.eqb (ds_data a) k
    then do ia <- ds_item a k; do r <- da_compare st false it ia;
         if r : bool then ds_union_second st a b out ks' else Throw DataArrayError
    else ds_union_second st a b (emplace k it out) ks'
  end.
Definition ds_union (st : store) (a b : dset) : res (list (Z * darray)) :=
  do out <- ds_union_first a [] (m_keys (ds_data a)); ds_union_second st a b out (m_keys (ds_data b)).
(** operations.cpp 35-37 *)
Definition ds_merge (st : store) (a b : dset) : res dset :=
  do l <- ds_union st a b; do c <- union_ st (ds_coords a) (ds_coords b); ds_make st l c.

(** operations.cpp 130-151: [strip_if_broadcast_along] of a dataset, until the second statement. *)
Fixpoint strip_loop (out : sdict) (l : list (Z * item)) (dim : Dim) : res sdict :=
  match l with
  | [] => Ok out
  | (k, it) :: l' => do o <- (if dcontains (i_dims it) dim then sd_set out k it else Ok out); strip_loop o l' dim
  end.
Definition strip_start (d : dset) (dim : Dim) : res dset :=
  do c <- strip_loop (mksd (sd_sizes (ds_coords d)) mempty false) (ditems (sd_items (ds_coords d))) dim;
  ds_set_coords ds_default c.

(** Operations on a dataset. Slicing, renaming and merging replace it by the result. *)
Inductive ds_op :=
| DsSetVar (keep : bool) (k : Z) (v : item) | DsSetDa (k : Z) (a : darray) | DsSetDaInit (k : Z) (a : darray)
| DsErase (k : Z) | DsExtract (k : Z) | DsClear
| DsSetCoord (k : Z) (it : item) | DsEraseCoord (k : Z) | DsSetAligned (k : Z) (b : bool) | DsSetCoords (c : sdict)
| DsSlice (s : slice) | DsRename (names : list (Dim * Dim)) | DsMerge (other : dset) | DsCopy.
Definition ds_step (st : store) (d : dset) (o : ds_op) : dset * res unit :=
  match o with
  | DsSetVar keep k v => commit d (ds_set_var keep d k v)
  | DsSetDa k a => ds_set_da st d k a
  | DsSetDaInit k a => ds_set_da_init st d k a
  | DsErase k => commit d (ds_erase d k)
  | DsExtract k => commit d (do r <- ds_extract d k; Ok (snd r))
  | DsClear => commit d (ds_clear d)
  | DsSetCoord k it => commit d (ds_set_coord d k it)
  | DsEraseCoord k => commit d (do c <- sd_erase (ds_coords d) k; Ok (with_coords d c))
  | DsSetAligned k b => commit d (do c <- sd_set_aligned (ds_coords d) k b; Ok (with_coords d c))
  | DsSetCoords c => commit d (ds_set_coords d c)
  | DsSlice s => commit d (ds_slice st d s)
  | DsRename names => commit d (ds_rename st d names)
  | DsMerge other => commit d (ds_merge st d other)
  | DsCopy => (ds_copy d, Ok tt)
  end.
