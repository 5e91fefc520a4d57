(** Model of [linspace] (lib/variable/util.cpp 19-44) for doubles: evenly spaced values along a new inner dimension. Variables are
    given by their values at labelled indices ([darr], C10). *)
From Verif Require Import Base Float Map_Model Dims_Model View_Model Accumulate_Model.

(** util.cpp 37-42: the element at position [i]; the last one is copied from [stop]. *)
Definition linspace_at (start stop : f64) (num i : Z) : f64 :=
  if i <? num - 1 then fadd start (fmul (fdiv (f_of_Z i) (f_of_Z (num - 1))) (fsub stop start)) else stop.

(** util.cpp 24-44. [unit_same], [dtype_same]: of the two arguments; [floating]: dtype is double (float is not modelled);
    [variances]: one of them has variances. The slice at [num - 1] fails if there are no elements. *)
Definition linspace (unit_same dtype_same floating variances : bool) (start stop : darr f64) (dim : Dim) (num : Z) : res (darr f64) :=
  if negb (dims_eqb (dd start) (dd stop)) then Throw DimensionError
  else if negb unit_same then Throw UnitError
  else if negb dtype_same then Throw TypeError
  else if negb floating then Throw TypeError
  else if variances then Throw VariancesError
  else
    do d <- add_inner (dd start) dim num;
    if num <=? 0 then Throw SliceError
    else Ok (mkd d (fun ix => linspace_at (dv start ix) (dv stop ix) num (ix dim))).
