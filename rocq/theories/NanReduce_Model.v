(** Model of means and of reductions ignoring NaN, on doubles: lib/variable/reduction.cpp 56-115, 152-158,
    lib/variable/operations_common.h 21-29, lib/dataset/variable_reduction.cpp 83-91. The operations, initial values and
    [reduce_dim] are in Mask_Model. Accumulation is serial ([reduce_data]); the parallel path of accumulate.h adds up in
    another order. Values of dtype float, which are accumulated as double, and variances are not modelled. *)
From Verif Require Import Base Map_Model Dims_Model View_Model SizedDict_Model Accumulate_Model Float Mask_Model.
From Flocq Require Import BinarySingleNaN.

(** reduction.cpp 56-106: [op(var, dim)] *)
Definition reduce_f (o : redop) (var : darr f64) (dim : Dim) : res (darr f64) := reduce_dim (reduce_data (r_op o)) (r_init o) var dim.

(** operations_common.h 21-29: [numerator * reciprocal(astype(denominator, double))] *)
Definition norm_f (s : f64) (n : Z) : f64 := fmul s (fdiv (f_of_Z 1) (f_of_Z n)).

(** reduction.cpp 108-110, 152-154 with the count of 130-136 *)
Definition mean_f (var : darr f64) (dim : Dim) : res (darr f64) :=
  do n <- dat (dd var) dim;
  do s <- reduce_f RSum var dim;
  normalize_impl norm_f s (mkd mempty (fun _ => n)).

(** The sum of a boolean variable counts. *)
Definition counting (p : f64 -> bool) (var : darr f64) : darr Z := mkd (dd var) (fun ix => if p (dv var ix) then 1 else 0).
Definition count_f (c : darr Z) (dim : Dim) : res (darr Z) := reduce_dim (reduce_data Z.add) 0 c dim.

(** reduction.cpp 112-115, 156-158 *)
Definition nanmean_f (var : darr f64) (dim : Dim) : res (darr f64) :=
  do c <- count_f (counting is_finite var) dim;
  do s <- reduce_f RNansum var dim;
  normalize_impl norm_f s c.

(** variable_reduction.cpp 83-91 *)
Definition nanmean_masked (var : darr f64) (dim : Dim) (l : list (Z * mask)) : res (darr f64) :=
  do u <- irreducible_mask l dim;
  match u with
  | None => nanmean_f var dim
  | Some m =>
    do b <- where_ m 0 (counting (fun x => negb (is_nan x)) var);
    do c <- count_f b dim;
    do w <- where_ m f_zero var;
    do s <- reduce_f RNansum w dim;
    normalize_impl norm_f s c
  end.
