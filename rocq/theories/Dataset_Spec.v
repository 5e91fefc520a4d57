(** Vocabulary for datasets: when the items of a dataset are consistent with it, and what its items look like. *)
From Verif Require Import Base Map_Model Dims_Model Dims_Spec View_Model View_Spec SizedDict_Model SizedDict_Spec Equality_Model Equality_Spec Dataset_Model.

(** The same dimensions with the same extents, in any order. *)
Definition same_shape (p q : list (Dim * Z)) : Prop := forall k n, In (k, n) p <-> In (k, n) q.

Definition ds_list (d : dset) : list (Z * darray) := ditems (ds_data d).
Definition ds_shape (d : dset) : list (Dim * Z) := sd_shape (ds_coords d).

(** A data array fits: it is consistent by itself, has no coords of its own, and has the dimensions of the dataset. *)
Definition item_fits (d : dset) (a : darray) : Prop :=
  da_ok a /\ da_comparable a /\ sd_list (da_coords a) = [] /\ same_shape (da_shape a) (ds_shape d).

(** The dataset is consistent: the coords fit its dimensions, names are unique, all items fit; a writable dataset has a
    writable dictionary of coords. A default-constructed dataset has no content. *)
Definition ds_ok (d : dset) : Prop :=
  sd_ok (ds_coords d) /\ dict_comparable (ds_coords d) /\
  NoDup (m_keys (ds_data d)) /\ length (m_values (ds_data d)) = length (m_keys (ds_data d)) /\
  (forall k a, In (k, a) (ds_list d) -> item_fits d a) /\
  (ds_readonly d = false -> sd_readonly (ds_coords d) = false) /\
  (ds_valid d = false -> ds_readonly d = false /\ ds_shape d = [] /\ sd_list (ds_coords d) = [] /\ ds_list d = []).

(** The coord has only dimensions of the parent. *)
Definition within (parent : list (Dim * Z)) (it : item) : bool := forallb (fun e => existsb (Z.eqb (fst e)) (map fst parent)) (ishape it).
Definition as_const (e : Z * item) : Z * item := (fst e, with_var (snd e) (var_as_const (i_var (snd e)))).

(** The item [k] as seen by the user: its data, masks and attributes, with the coords of the dataset, read-only. A coord
    with an additional dimension of length 2 (the edges of a single bin) is not included. *)
Definition seen (d : dset) (k : Z) (w : darray) : Prop :=
  da_ok w /\ exists a, In (k, a) (ds_list d) /\ da_data w = da_data a /\ da_masks w = da_masks a /\ da_attrs w = da_attrs a /\
    sd_list (da_coords w) = map as_const (filter (fun e => within (ds_shape d) (snd e)) (sd_list (ds_coords d))) /\
    sd_readonly (da_coords w) = true /\ da_readonly w = ds_readonly d.

(** ** Inserting a data array *)
(** A coord of the data array has the same alignment as, and another value than, that of the dataset. *)
Definition clash (st : store) (d : dset) (a : darray) : Prop :=
  exists k i j, In (k, i) (sd_list (ds_coords d)) /\ In (k, j) (sd_list (da_coords a)) /\ i_aligned i = i_aligned j /\ ~ var_same true st j i.
(** The dataset already has this data array under this name. *)
Definition identical (st : store) (d : dset) (k : Z) (a : darray) : Prop :=
  exists w, seen d k w /\ same_view (da_data w) (da_data a) /\ dict_same false st (da_masks w) (da_masks a) /\
    dict_same false st (da_attrs w) (da_attrs a) /\ dict_same false st (da_coords w) (da_coords a).
(** Coords that the dataset does not have yet. *)
Definition missing (have l : list (Z * item)) : list (Z * item) := filter (fun e => negb (existsb (Z.eqb (fst e)) (map fst have))) l.
(** [l'] is [l] with the value for [k] inserted at the end or replaced. *)
Definition put_item {A} (l : list (Z * A)) (k : Z) (x : A) (l' : list (Z * A)) : Prop :=
  (~ In k (map fst l) /\ l' = l ++ [(k, x)]) \/ exists l1 y l2, l = l1 ++ (k, y) :: l2 /\ l' = l1 ++ (k, x) :: l2.
(** Data, masks and attributes of [a], without coords. *)
Definition bare (a b : darray) : Prop :=
  da_data b = da_data a /\ da_masks b = da_masks a /\ da_attrs b = da_attrs a /\ sd_list (da_coords b) = [].

(** Item by item: the data array of the result is that of the operand, sliced. *)
Definition data_sliced (s : slice) (l l' : list (Z * darray)) : Prop :=
  Forall2 (fun x y => fst y = fst x /\ var_slice (i_var (da_data (snd x))) s = Ok (i_var (da_data (snd y))) /\
    i_obj (da_data (snd y)) = i_obj (da_data (snd x)) /\
    dict_sliced (da_shape (snd x)) s (sd_list (da_masks (snd x))) (sd_list (da_masks (snd y))) /\
    dict_sliced (da_shape (snd x)) s (sd_list (da_attrs (snd x))) (sd_list (da_attrs (snd y)))) l l'.

(** Some coord, mask or attribute has bin edges along the dimension. *)
Definition any_edges (d : dset) (dim : Dim) : Prop :=
  (exists k it, In (k, it) (sd_list (ds_coords d)) /\ edges_along (ds_shape d) dim it) \/
  exists name a k it, In (name, a) (ds_list d) /\ In (k, it) (sd_list (da_masks a) ++ sd_list (da_attrs a)) /\ edges_along (da_shape a) dim it.

(** Item by item: renamed. *)
Definition data_renamed (names : list (Dim * Dim)) (l l' : list (Z * darray)) : Prop :=
  Forall2 (fun x y => fst y = fst x /\ i_obj (da_data (snd y)) = i_obj (da_data (snd x)) /\
    v_strides (i_var (da_data (snd y))) = v_strides (i_var (da_data (snd x))) /\
    v_offset (i_var (da_data (snd y))) = v_offset (i_var (da_data (snd x))) /\
    rename_pairs (da_shape (snd x)) names true = Some (da_shape (snd y)) /\
    dict_renamed names (sd_list (da_masks (snd x))) (sd_list (da_masks (snd y))) /\
    dict_renamed names (sd_list (da_attrs (snd x))) (sd_list (da_attrs (snd y)))) l l'.

(** Renaming would give two dimensions of an item the same name. *)
Definition name_taken (names : list (Dim * Dim)) (parent : list (Dim * Z)) (l : list (Z * item)) : Prop :=
  exists k it t, In (k, it) l /\ In t (map snd names) /\ In t (keys (ishape it)) /\ ~ In t (keys parent).
(** Likewise for a mask or attribute of one of the data arrays. *)
Definition taken_any (names : list (Dim * Dim)) (l : list (Z * darray)) : Prop :=
  exists name a, In (name, a) l /\ name_taken names (da_shape a) (sd_list (da_masks a) ++ sd_list (da_attrs a)).

(** ** Merging *)
(** Both datasets have an item with this name, which differ. *)
Definition items_differ (st : store) (a b : dset) : Prop :=
  exists k x y, seen a k x /\ seen b k y /\ ~ da_same false st y x.
(** The items of both, those of the first dataset if both have one with the name; data, masks and attributes. *)
Definition merged_item (a b : dset) (k : Z) (x : darray) : Prop :=
  (exists y, In (k, y) (ds_list a) /\ bare y x) \/ (~ In k (map fst (ds_list a)) /\ exists y, In (k, y) (ds_list b) /\ bare y x).

(** ** Histories *)
(** Calls with sane arguments. Replacing the coords must keep the dimensions and not make them read-only (see the
    counterexamples). *)
Definition ds_allowed (d : dset) (o : ds_op) : Prop :=
  match o with
  | DsSetVar _ _ v => comparable v
  | DsSetDa _ a | DsSetDaInit _ a => da_ok a /\ da_comparable a
  | DsSetCoord _ it => comparable it
  | DsSetCoords c => sd_ok c /\ dict_comparable c /\ sd_readonly c = false /\ same_shape (sd_shape c) (ds_shape d)
  | DsSlice s => slice_ok s /\ slice_eqb s slice_default = false
  | DsRename names => ~ In InvalidDim (map snd names)
  | DsMerge other => ds_ok other
  | DsErase _ | DsExtract _ | DsClear | DsEraseCoord _ | DsSetAligned _ _ | DsCopy => True
  end.
(** Failing calls included; the values in memory may change from call to call. *)
Inductive ds_reachable (d0 : dset) : dset -> Prop :=
| ds_refl : ds_reachable d0 d0
| ds_next st d o : ds_reachable d0 d -> ds_allowed d o -> ds_reachable d0 (fst (ds_step st d o)).
