(** Vocabulary for reductions of doubles. *)
From Verif Require Import Base Map_Model Dims_Model Dims_Spec View_Model Accumulate_Model Float Mask_Model Mask_Spec.
From Flocq Require Import BinarySingleNaN.

(** The elements along a dimension through [ix], those that are not NaN. *)
Definition elements (var : darr f64) (dim : Dim) (n : Z) (ix : Dim -> Z) : list f64 := map (dv var) (along ix dim n).
Definition not_nans (l : list f64) : list f64 := filter (fun x => negb (is_nan x)) l.
Definition not_infinite (x : f64) : Prop := is_finite x = true \/ is_nan x = true.

(** The reduction with and without special treatment of NaN. *)
Inductive nan_variant : redop -> redop -> Prop :=
  | nv_sum : nan_variant RNansum RSum
  | nv_max : nan_variant RNanmax RMax
  | nv_min : nan_variant RNanmin RMin.

(** The sum in order, as a loop would compute it. *)
Definition sum_f (l : list f64) : f64 := fold_left fadd l (B754_zero false).

(** A list as a one-dimensional array. *)
Definition line_of (dim : Dim) (l : list f64) : darr f64 := mkd (mkmap [dim] [zlen l]) (fun ix => nth (Z.to_nat (ix dim)) l f_zero).
