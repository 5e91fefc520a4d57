(** Vocabulary for coords, masks and attributes: when an item fits the shape of its parent. Shapes are lists of
    (label, extent) pairs. *)
From Verif Require Import Base Map_Model Dims_Model Dims_Spec View_Model View_Spec SizedDict_Model.

(** Only dimensions of the parent with the extents of the parent, up to one dimension [e] in which the item has one
    element more than the parent (bin edges), or which the parent does not have and in which the item has length 2
    (the edges of a bin selected by a slice). *)
Definition fits (parent d : list (Dim * Z)) : Prop :=
  (forall k n, In (k, n) d -> In (k, n) parent) \/
  exists e n, In (e, n) d /\ (forall k m, In (k, m) d -> k <> e -> In (k, m) parent) /\
    (In (e, n - 1) parent \/ (~ In e (keys parent) /\ n = 2)).

Definition ishape (it : item) : list (Dim * Z) := pairs (i_dims it).
Definition sd_list (d : sdict) : list (Z * item) := ditems (sd_items d).
Definition sd_shape (d : sdict) : list (Dim * Z) := pairs (sd_sizes d).

(** Items are well-formed dense variables. *)
Definition item_ok (it : item) : Prop := wfv (i_var it) /\ i_bins it = false.

(** The dictionary is consistent: one value per key, and every item fits. *)
Definition sd_ok (d : sdict) : Prop :=
  wf (sd_sizes d) /\
  NoDup (m_keys (sd_items d)) /\ length (m_values (sd_items d)) = length (m_keys (sd_items d)) /\
  forall k it, In (k, it) (sd_list d) -> item_ok it /\ fits (sd_shape d) (ishape it).

(** The item has bin edges along dimension [d] of its parent. *)
Definition edges_along (parent : list (Dim * Z)) (d : Dim) (it : item) : Prop :=
  exists n, In (d, n + 1) (ishape it) /\ In (d, n) parent.

(** Number of bin edges kept by a slice (of step 1): those of the kept bins. *)
Definition kept_edges (s : slice) : Z :=
  if s_end s =? -1 then 2 else if s_begin s =? s_end s then 0 else s_end s - s_begin s + 1.

(** [it'] is the part of [it] that belongs to the slice [s] of the parent: same buffer, and the elements are those
    selected along the dimension; an item without the dimension is unchanged but read-only. *)
Definition item_sliced (parent : list (Dim * Z)) (s : slice) (it it' : item) : Prop :=
  i_obj it' = i_obj it /\ i_bins it' = i_bins it /\
  (~ In (s_dim s) (keys (ishape it)) ->
     ishape it' = ishape it /\ v_readonly (i_var it') = true /\
     forall ix, vaddr (i_var it') ix = vaddr (i_var it) ix) /\
  (In (s_dim s) (keys (ishape it)) -> ~ edges_along parent (s_dim s) it ->
     slice_dims (ishape it) s = Some (ishape it') /\
     forall ix, valid_at (ishape it') ix ->
       vaddr (i_var it') ix = vaddr (i_var it) (put ix (s_dim s)
         (s_begin s + if s_end s =? -1 then 0 else s_stride s * ix (s_dim s)))) /\
  (edges_along parent (s_dim s) it ->
     s_stride s = 1 /\
     ishape it' = map (fun e => if fst e =? s_dim s then (fst e, kept_edges s) else e) (ishape it) /\
     forall ix, valid_at (ishape it') ix ->
       vaddr (i_var it') ix = vaddr (i_var it) (put ix (s_dim s) (s_begin s + ix (s_dim s)))).

(** [d] is the dimension of bin edges of the item: the item has one element more than the parent, or the parent
    does not have it and the item has length 2. *)
Definition edge_dim (parent : list (Dim * Z)) (it : item) (d : Dim) : Prop :=
  exists n, In (d, n) (ishape it) /\ (In (d, n - 1) parent \/ (~ In d (keys parent) /\ n = 2)).

(** The coord with name [k] is a coord for dimension [d]: that is its only dimension, or it has bin edges along it,
    or it has the name of the dimension and bin edges nowhere. *)
Definition coord_of (parent : list (Dim * Z)) (k : Z) (it : item) (d : Dim) : Prop :=
  In d (keys (ishape it)) /\
  (length (ishape it) = 1%nat \/ edge_dim parent it d \/ ((forall e, ~ edge_dim parent it e) /\ k = d)).

(** Item by item, with the same keys in the same order. *)
Definition dict_sliced (parent : list (Dim * Z)) (s : slice) (l l' : list (Z * item)) : Prop :=
  Forall2 (fun a b => fst b = fst a /\ item_sliced parent s (snd a) (snd b) /\ i_aligned (snd b) = i_aligned (snd a)) l l'.
(** For coords: a point slice makes the coords for its dimension unaligned, everything else keeps its alignment. *)
Definition coords_sliced (parent : list (Dim * Z)) (s : slice) (l l' : list (Z * item)) : Prop :=
  Forall2 (fun a b => fst b = fst a /\ item_sliced parent s (snd a) (snd b) /\
    (s_end s = -1 /\ coord_of parent (fst a) (snd a) (s_dim s) -> i_aligned (snd b) = false) /\
    (~ (s_end s = -1 /\ coord_of parent (fst a) (snd a) (s_dim s)) -> i_aligned (snd b) = i_aligned (snd a))) l l'.

(** ** Histories *)
Definition known_names (p : list (Dim * Z)) (names : list (Dim * Dim)) : Prop := rename_pairs p names true <> None.
(** Calls with sane arguments. Two restrictions are needed for the invariant (see the counterexamples): renaming only
    labels of the dictionary, and not adding a dimension that some item already has as an extra dimension of length 2. *)
Definition allowed (d : sdict) (o : sd_op) : Prop :=
  match o with
  | SdSet _ it => wfv (i_var it)
  | SdSlice s | SdSliceCoords s => slice_ok s /\ slice_eqb s slice_default = false
  | SdRename names flag => ~ In InvalidDim (map snd names) /\ (flag = true \/ known_names (sd_shape d) names)
  | SdSetSizes sz => wf sz /\ forall k it e, In (k, it) (sd_list d) -> In e (keys (ishape it)) ->
      ~ In e (keys (sd_shape d)) -> ~ In e (keys (pairs sz))
  | SdMerge other => sd_ok other
  | SdErase _ | SdSetAligned _ _ | SdConst | SdCopy => True
  end.
Inductive reachable (d0 : sdict) : sdict -> Prop :=
| reach_refl : reachable d0 d0
| reach_step d o d' : reachable d0 d -> allowed d o -> sd_step d o = Ok d' -> reachable d0 d'.

(** Item by item: the same buffer and view, with renamed dimensions. *)
Definition dict_renamed (names : list (Dim * Dim)) (l l' : list (Z * item)) : Prop :=
  Forall2 (fun a b => fst b = fst a /\ i_obj (snd b) = i_obj (snd a) /\ i_aligned (snd b) = i_aligned (snd a) /\
    i_bins (snd b) = i_bins (snd a) /\ v_strides (i_var (snd b)) = v_strides (i_var (snd a)) /\
    v_offset (i_var (snd b)) = v_offset (i_var (snd a)) /\
    rename_pairs (ishape (snd a)) names false = Some (ishape (snd b))) l l'.

(** ** Data arrays *)
Definition da_ok (a : darray) : Prop :=
  wfv (i_var (da_data a)) /\
  sd_sizes (da_coords a) = i_dims (da_data a) /\ sd_sizes (da_masks a) = i_dims (da_data a) /\
  sd_sizes (da_attrs a) = i_dims (da_data a) /\ sd_ok (da_coords a) /\ sd_ok (da_masks a) /\ sd_ok (da_attrs a).
Definition da_shape (a : darray) : list (Dim * Z) := ishape (da_data a).
Definition da_items (a : darray) : list (Z * item) := sd_list (da_coords a) ++ sd_list (da_masks a) ++ sd_list (da_attrs a).
