(** Vocabulary for comparisons: when two variables, dictionaries or data arrays have the same content. Independent of
    strides, offsets and buffers. *)
From Flocq Require Import BinarySingleNaN.
From Verif Require Import Base Map_Model Dims_Model Dims_Spec Index_Model View_Model View_Spec Float SizedDict_Model SizedDict_Spec
  Equality_Model.

Definition is_zero (x : f64) : Prop := exists s, x = B754_zero s.
(** Equal as numbers: the same number, or zeros of any sign; NaN is equal to nothing. *)
Definition num_same (x y : f64) : Prop := (x = y /\ x <> B754_nan) \/ (is_zero x /\ is_zero y).

(** With [nan]: NaN is the same as NaN, for floating-point elements. *)
Definition elem_same (nan : bool) (a b : elem) : Prop :=
  match a, b with
  | EFlt x, EFlt y => num_same x y \/ (nan = true /\ x = B754_nan /\ y = B754_nan)
  | ENum m, ENum n => m = n
  | EVec l, EVec k => Forall2 num_same l k
  | _, _ => False
  end.

(** Value and variance at a labelled index. *)
Definition value (st : store) (a : item) (ix : Dim -> Z) : elem := b_val (st (i_obj a)) (vaddr (i_var a) ix).
Definition variance (st : store) (a : item) (ix : Dim -> Z) : option elem :=
  match b_var (st (i_obj a)) with Some f => Some (f (vaddr (i_var a) ix)) | None => None end.
Definition unit_of (st : store) (a : item) : Z := b_unit (st (i_obj a)).
Definition dtype_of (st : store) (a : item) : Z := b_dtype (st (i_obj a)).
Definition has_variances (st : store) (a : item) : Prop := b_var (st (i_obj a)) <> None.

(** The same unit, data type and shape (with the dimensions in the same order), and element by element the same. *)
Definition same_content (nan : bool) (st : store) (a b : item) : Prop :=
  unit_of st a = unit_of st b /\ dtype_of st a = dtype_of st b /\ ishape a = ishape b /\
  (has_variances st a <-> has_variances st b) /\
  (forall ix, valid_at (ishape a) ix -> elem_same nan (value st a ix) (value st b ix)) /\
  (forall ix x y, valid_at (ishape a) ix -> variance st a ix = Some x -> variance st b ix = Some y -> elem_same nan x y).

(** The same view of the same buffer. *)
Definition same_view (a b : item) : Prop :=
  i_obj a = i_obj b /\ ishape a = ishape b /\ v_strides (i_var a) = v_strides (i_var b) /\ v_offset (i_var a) = v_offset (i_var b).

Definition var_same (nan : bool) (st : store) (a b : item) : Prop :=
  (nan = true /\ same_view a b) \/ same_content nan st a b.

(** Well-formed and within the supported rank. *)
Definition comparable (a : item) : Prop := wfv (i_var a) /\ (length (ishape a) <= NDIM_OP_MAX)%nat.

Definition elem_has_nan (e : elem) : Prop :=
  match e with EFlt x => x = B754_nan | ENum _ => False | EVec l => In B754_nan l end.
Definition has_nan (st : store) (a : item) : Prop :=
  exists ix, valid_at (ishape a) ix /\ (elem_has_nan (value st a ix) \/ exists x, variance st a ix = Some x /\ elem_has_nan x).

(** Dictionaries: the same keys, in any order, with the same values and alignment. *)
Definition dict_same (nan : bool) (st : store) (a b : sdict) : Prop :=
  (forall k, In k (m_keys (sd_items a)) <-> In k (m_keys (sd_items b))) /\
  forall k i j, In (k, i) (sd_list a) -> In (k, j) (sd_list b) -> var_same nan st i j /\ i_aligned i = i_aligned j.
Definition dict_comparable (d : sdict) : Prop :=
  NoDup (m_keys (sd_items d)) /\ length (m_values (sd_items d)) = length (m_keys (sd_items d)) /\
  forall k i, In (k, i) (sd_list d) -> comparable i.

Definition da_same (nan : bool) (st : store) (a b : darray) : Prop :=
  dict_same nan st (da_coords a) (da_coords b) /\ dict_same nan st (da_masks a) (da_masks b) /\
  dict_same nan st (da_attrs a) (da_attrs b) /\ var_same nan st (da_data a) (da_data b).
Definition da_comparable (a : darray) : Prop :=
  comparable (da_data a) /\ dict_comparable (da_coords a) /\ dict_comparable (da_masks a) /\ dict_comparable (da_attrs a).
