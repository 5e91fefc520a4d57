(** Model of the check against broadcasting operands with variances
    (lib/variable/include/scipp/variable/transform.h) and of the units of the correlated operations
    (lib/variable/arithmetic.cpp, lib/variable/pow.cpp, lib/units/unit.cpp). *)
From Verif Require Import Base Map_Model Dims_Model View_Model.

(** An operand: its layout ([Variable::dims], [Variable::strides]), [has_variances], [is_bins]. *)
Record operand := mkop { o_view : var; o_variances : bool; o_bins : bool }.
Definition o_dims (o : operand) : sizes := v_dims (o_view o).

(** transform.h 382-395 *)
Definition bad_variance_broadcast (dims : sizes) (o : operand) : bool :=
  if negb (o_variances o) then false
  else if zlen (labels (o_dims o)) <? zlen (labels dims) then true
  else if volume dims =? 0 then false
  else existsb (fun s => s =? 0) (v_strides (o_view o)).

(** dimensions.h 87-90: [merge] of any number of dimensions. *)
Fixpoint merge_from (acc : sizes) (os : list operand) : res sizes :=
  match os with
  | [] => Ok acc
  | o :: os' => do m <- dims_merge acc (o_dims o); merge_from m os'
  end.
Definition merge_all (os : list operand) : res sizes :=
  match os with [] => Ub | o :: os' => merge_from (o_dims o) os' end.

(** transform.h 417-419 and 667-669 *)
Definition dense_with_variances (o : operand) : bool := o_variances o && negb (o_bins o).

(** transform.h 410-420: the shape of the output or an error; [force] is the flag
    [force_variance_broadcast] of the kernel. *)
Definition transform_check (force : bool) (os : list operand) : res sizes :=
  do dims <- merge_all os;
  if force then Ok dims
  else if existsb (bad_variance_broadcast dims) os then Throw VariancesError
  else if existsb o_bins os && existsb dense_with_variances os then Throw VariancesError
  else Ok dims.

Fixpoint includes_all (v : sizes) (os : list operand) : res unit :=
  match os with
  | [] => Ok tt
  | o :: os' => do b <- includes v (o_dims o); if b then includes_all v os' else Throw DimensionError
  end.

(** transform.h 650-670: checks of the in-place transform before anything is written. *)
Definition transform_in_place_check (force : bool) (v : operand) (os : list operand) : res unit :=
  do _ <- includes_all (o_dims v) os;
  if negb (o_bins v) && existsb o_bins os then Throw BinnedDataError
  else if force then Ok tt
  else
    do dims <- merge_from (o_dims v) os;
    if existsb (bad_variance_broadcast dims) os then Throw VariancesError
    else if (o_bins v || existsb o_bins os) && existsb dense_with_variances os then Throw VariancesError
    else Ok tt.

(** ** Units of the operations of an operand with itself. A unit is [None] (units::none) or a power of one base
    unit ([Some 0] is units::one); overflow of exponents is not modelled. *)
Definition bunit := option Z.
Definition bunit_eqb (a b : bunit) : bool :=
  match a, b with None, None => true | Some x, Some y => x =? y | _, _ => false end.
(** unit.cpp 89-93 *)
Definition bunit_add (a b : bunit) : res bunit := if bunit_eqb a b then Ok a else Throw UnitError.
(** unit.cpp 109-118 *)
Definition bunit_mul (a b : bunit) : res bunit :=
  match a, b with
  | None, None => Ok None
  | Some x, Some y => Ok (Some (x + y))
  | _, _ => Throw UnitError
  end.
(** unit.cpp 120-129 *)
Definition bunit_div (a b : bunit) : res bunit :=
  match a, b with
  | None, None => Ok None
  | Some x, Some y => Ok (Some (x - y))
  | _, _ => Throw UnitError
  end.
(** unit.cpp 157-164 *)
Definition bunit_pow (a : bunit) (n : Z) : bunit := match a with None => None | Some x => Some (x * n) end.

(** arithmetic.cpp 22-28: the unit of [make_factor]. *)
Definition factor_unit (a : bunit) : bunit := if bunit_eqb a None then None else Some 0.
(** pow.cpp 51-78 with a scalar exponent of integral value [n]. *)
Definition pow_unit (a e : bunit) (n : Z) : res bunit :=
  if negb (bunit_eqb e (Some 0)) then Throw UnitError
  else if bunit_eqb a (Some 0) then Ok (Some 0)
  else Ok (bunit_pow a n).

(** arithmetic.cpp 38-68: the unit of [a op b]; [same]: the operands are correlated (the same variable with
    variances). *)
Definition unit_add (same : bool) (a b : bunit) : res bunit :=
  if same then bunit_mul a (factor_unit a) else bunit_add a b.
Definition unit_sub (same : bool) (a b : bunit) : res bunit :=
  if same then bunit_mul a (factor_unit a) else bunit_add a b.
Definition unit_mul (same : bool) (a b : bunit) : res bunit :=
  if same then pow_unit a (factor_unit a) 2 else bunit_mul a b.
Definition unit_div (same : bool) (a b : bunit) : res bunit :=
  if same then pow_unit a (factor_unit a) 0 else bunit_div a b.
