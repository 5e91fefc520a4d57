(** What an assignment to a slice must do. *)
From Verif Require Import Base Map_Model Dims_Model Dims_Spec Index_Model View_Model View_Spec Transform_Model Transform_Spec SizedDict_Model SizedDict_Spec
  Equality_Model Equality_Spec Union_Spec Dataset_Model Dataset_Spec SetSlice_Model.

(** The parts of a data array that can be assigned to: the data and the masks. *)
Definition item_at (a : darray) (o : option Z) (x : item) : Prop :=
  match o with None => x = da_data a | Some k => In (k, x) (sd_list (da_masks a)) end.
(** [x], a part of [a], is to be assigned from [y], the same part of [b]: the data always, a mask if it is writable and has the
    dimension of the slice. *)
Definition writes (s : slice) (a b : darray) (o : option Z) (x y : item) : Prop :=
  item_at a o x /\ item_at b o y /\ (o <> None -> v_readonly (i_var x) = false /\ In (s_dim s) (keys (ishape x))).

(** The slice [s] of [x] can take the values of [y]: it has (at least) the dimensions of [y], and the same dtype, unit and kind of
    elements. *)
Definition fits_slice (kind : Z -> info) (s : slice) (x y : item) : Prop :=
  v_readonly (i_var x) = false /\ kind (i_obj x) = kind (i_obj y) /\
  exists p, slice_dims (ishape x) s = Some p /\ forall k n, In (k, n) (ishape y) -> In (k, n) p.
(** The elements of the slice [s] of [x] have become those of [y] before the assignment. *)
Definition gets (h h' : heap element) (s : slice) (x y : item) : Prop :=
  forall p ix, slice_dims (ishape x) s = Some p -> valid_at p ix ->
  value_at h' (arr_of x) (pull (ishape x) (VwSlice s) ix) = value_at h (arr_of y) ix.
(** [c] is in the slice [s] of [x]. *)
Definition slice_cell (s : slice) (x : item) (c : cell) : Prop :=
  exists p ix, slice_dims (ishape x) s = Some p /\ valid_at p ix /\ c = (i_buf x, vaddr (i_var x) (pull (ishape x) (VwSlice s) ix)).

(** The part of [x] in the slice (all of [x] if it does not have the dimension) equals [y]. *)
Definition equal_part (kind : Z -> info) (h : heap element) (s : slice) (x y : item) : Prop :=
  kind (i_obj x) = kind (i_obj y) /\
  exists f, (In (s_dim s) (keys (ishape x)) -> slice_dims (ishape x) s = Some (ishape y) /\ f = pull (ishape x) (VwSlice s)) /\
    (~ In (s_dim s) (keys (ishape x)) -> ishape x = ishape y /\ f = fun ix => ix) /\
    forall ix, valid_at (ishape y) ix ->
      elem_same false (fst (value_at h (arr_of x) (f ix))) (fst (value_at h (arr_of y) ix)) /\
      (n_vars (kind (i_obj x)) = true -> elem_same false (snd (value_at h (arr_of x) (f ix))) (snd (value_at h (arr_of y) ix))).

(** The checks before the first change: the coords of the slice match those of [b], the data are of the same kind, and [a] has all
    masks of [b], which are assigned or equal already. *)
Definition accepted (kind : Z -> info) (h : heap element) (s : slice) (a b : darray) : Prop :=
  (exists a', da_slice a s = Ok a' /\ superset (store_of kind h) (da_coords a') (da_coords b)) /\
  kind (i_obj (da_data a)) = kind (i_obj (da_data b)) /\
  forall k y, In (k, y) (sd_list (da_masks b)) ->
  exists x, In (k, x) (sd_list (da_masks a)) /\ (writes s a b (Some k) x y \/ equal_part kind h s x y).

(** Well-formed operands. *)
Definition operands_ok (s : slice) (l : list (darray * darray)) : Prop :=
  slice_ok s /\ slice_eqb s slice_default = false /\
  forall a b, In (a, b) l -> da_ok a /\ da_comparable a /\ da_ok b /\ da_comparable b /\
  forall o x y, writes s a b o x y -> v_readonly (i_var x) = false -> distinct_elements (arr_of x).

(** Memory: what is assigned to does not share its buffer with any other data, mask or coord, except for the values assigned to it. *)
Definition separate (tmp : nat) (s : slice) (l : list (darray * darray)) : Prop :=
  (forall a b, In (a, b) l -> forall z, (exists o, item_at a o z \/ item_at b o z) \/ (exists k, In (k, z) (sd_list (da_coords a)) \/ In (k, z) (sd_list (da_coords b))) ->
     i_buf z <> tmp) /\
  forall i a b o x y, nth_error l i = Some (a, b) -> writes s a b o x y ->
  forall i' a' b', nth_error l i' = Some (a', b') ->
    (forall o' z, item_at a' o' z \/ item_at b' o' z -> (i', o') <> (i, o) -> i_buf z <> i_buf x) /\
    (forall k z, In (k, z) (sd_list (da_coords a')) \/ In (k, z) (sd_list (da_coords b')) -> i_buf z <> i_buf x).

Definition all_fit (kind : Z -> info) (s : slice) (l : list (darray * darray)) : Prop :=
  forall a b o x y, In (a, b) l -> writes s a b o x y -> fits_slice kind s x y.
(** Everything is assigned; nothing outside of the slices changes (except for the buffer of temporary copies). *)
Definition assigned (h h' : heap element) (s : slice) (l : list (darray * darray)) : Prop :=
  forall a b o x y, In (a, b) l -> writes s a b o x y -> gets h h' s x y.
Definition only_slices (tmp : nat) (h h' : heap element) (s : slice) (l : list (darray * darray)) : Prop :=
  forall c, fst c <> tmp -> (forall a b o x y, In (a, b) l -> writes s a b o x y -> ~ slice_cell s x c) -> h' c = h c.

(** ** Datasets *)
(** Every item of [d] with the item of [e] of the same name. *)
Definition named_pairs (d e : dset) (l : list (darray * darray)) : Prop :=
  Forall2 (fun na ab => fst ab = snd na /\ In (fst na, snd ab) (ds_list e)) (ds_list d) l.
(** The checks before the first change: the coords of the slice match [coords], and all items are accepted. *)
Definition ds_accepted (kind : Z -> info) (h : heap element) (s : slice) (d : dset) (coords : sdict) (l : list (darray * darray)) : Prop :=
  (exists d', ds_slice (store_of kind h) d s = Ok d' /\ superset (store_of kind h) (ds_coords d') coords) /\
  forall a b, In (a, b) l -> accepted kind h s a b.
(** A variable to be assigned to the slices of the data of all items. *)
Definition variable_ok (tmp : nat) (s : slice) (d : dset) (y : item) : Prop :=
  slice_ok s /\ comparable y /\ i_buf y <> tmp /\ NoDup (map (fun na => i_buf (da_data (snd na))) (ds_list d)) /\
  forall n a, In (n, a) (ds_list d) -> i_buf (da_data a) <> tmp /\ i_buf (da_data a) <> i_buf y /\
    (v_readonly (i_var (da_data a)) = false -> distinct_elements (arr_of (da_data a))).
