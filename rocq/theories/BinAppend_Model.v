(** Model of the bin-wise concatenation of binned variables of any shape and memory layout: [combine], [concatenate] and
    [append] (lib/dataset/bins.cpp 240-278, 303-320).

    A binned variable is a view on an array of pairs of indices, and a buffer (lib/variable/include/scipp/variable/
    bin_array_model.h 22-80): slices and transposes change the view only. The element-wise operations on the indices
    (bins.cpp 246-253) run over the merged dimensions (C10); their results are contiguous in row-major order, so that the part
    of one-dimensional lists is Bins_Model.combine_bins. *)
From Verif Require Import Base Arr Map_Model Dims_Model View_Model View_Spec Reshape_Model Bins_Model Mask_Model.

Record binned (A : Type) := mkbn { bn_indices : varr (Z * Z); bn_buffer : buffer A }.
Arguments mkbn {A}. Arguments bn_indices {A}. Arguments bn_buffer {A}.

(** The elements of a variable, broadcast to dimensions [d], in row-major order. *)
Definition spread_to {A} (d : sizes) (x : varr A) : list A :=
  map (fun k => va_buf x (vaddr (va x) (index_of d k))) (zseq 0 (Z.to_nat (volume d))).

Section Append.
Context {A : Type}.
Variable eqb : A -> A -> bool.
Variable junk : A.
(** bins.cpp 240-262, 264-278 *)
Definition concatenate_bins (x0 x1 : binned A) : res (binned A) :=
  do d <- dims_merge (vdims (bn_indices x0)) (vdims (bn_indices x1));
  do r <- combine_bins eqb junk (spread_to d (bn_indices x0)) (bn_buffer x0) (spread_to d (bn_indices x1)) (bn_buffer x1);
  Ok (mkbn (mkva (fun a => znth (0, 0) (fst r) a) (var_fresh d)) (snd r)).

(** lib/variable/variable.cpp 86-90, bin_array_model.h 27: the size of the whole array of indices; dimensions, strides and
    offset of the variable stay as they are. *)
Definition set_data_handle (x y : binned A) : res (binned A) :=
  if negb (v_size (va (bn_indices y)) =? v_size (va (bn_indices x))) then Throw DimensionError
  else Ok (mkbn (mkva (va_buf (bn_indices y)) (va (bn_indices x))) (bn_buffer y)).

(** bins.cpp 303-310 *)
Definition append_bins (x0 x1 : binned A) : res (binned A) := do r <- concatenate_bins x0 x1; set_data_handle x0 r.

(** bins.cpp 314-320, data_array.cpp 78-86: [append] for data arrays with masks [d] and [b]. [superset]: outcome of the
    comparison of the coords (Union_Model); [ro]: the array is read-only. The masks and data as they are after the call, and its
    outcome. *)
Definition append_array (superset : res unit) (ro : bool) (d : masks) (x0 : binned A) (b : vmap Z mask) (x1 : binned A) :
    masks * binned A * res unit :=
  match superset with
  | Throw e => (d, x0, Throw e) | Ub => (d, x0, Ub)
  | Ok _ =>
    match union_or_in_place d b with
    | (d', Ok _) =>
      match append_bins x0 x1 with
      | Ok x' => if ro then (d', x0, Throw DataArrayError) else (d', x', Ok tt)
      | Throw e => (d', x0, Throw e) | Ub => (d', x0, Ub)
      end
    | (d', r) => (d', x0, r)
    end
  end.
End Append.
