(** Unit conversion of integers and time points: lib/variable/to_unit.cpp and lib/core/include/scipp/core/element/to_unit.h.
    The conversion factor [llnl::units::quick_convert] comes from an external library; here it is a given double. *)
From Flocq Require Import Core BinarySingleNaN.
From Verif Require Import Base Float Numeric_Model.

(** the element types int64_t, int32_t and core::time_point (a wrapped int64_t, time_point.h) *)
Inductive int_dtype := I64 | I32 | TimePoint.
Definition dtype_bits (dt : int_dtype) : Z := match dt with I32 => 32 | _ => 64 end.

(** the value of [scalevar]: an int64_t or a double, to_unit.cpp 53-65 *)
Inductive scale_var := SInt (k : Z) | SDouble (s : f64).

(** the literals 1e6, 1e-6, 1e-12 and 0.5: quotients of exact doubles, hence the nearest doubles *)
Definition f_1e6 : f64 := f_of_Z 1000000.
Definition f_1em6 : f64 := fdiv (f_of_Z 1) (f_of_Z 1000000).
Definition f_1em12 : f64 := fdiv (f_of_Z 1) (f_of_Z 1000000000000).
Definition f_half : f64 := f_make 1 (-1).
(** [std::round]: to the nearest integer, halves away from zero *)
Definition fround : f64 -> f64 := Bnearbyint mode_NA.

(** to_unit.cpp 56: [base_scale] *)
Definition base_scale (s : f64) : f64 := if fltb f_1e6 s then fmul s f_1em6 else s.
(** to_unit.cpp 55-65; [int] says that the dtype is int64 or time_point. The cast of [iscale] is undefined if it does not
    fit in 64 bits, and so is an overflowing product. *)
Definition scale_of (int : bool) (s : f64) : res scale_var :=
  let base := base_scale s in
  let iscale := fround base in
  if fltb (fabs (fsub base iscale)) (fmul f_1em12 (fabs base)) then
    if int then
      do i <- f_to_Z 64 iscale;
      do k <- int_val 64 ((if fltb f_1e6 s then 1000000 else 1) * i);
      Ok (SInt k)
    else Ok (SDouble (fmul (f_of_Z (if fltb f_1e6 s then 1000000 else 1)) iscale))
  else Ok (SDouble s).

(** element/to_unit.h 21-30: [safe_cast] *)
Definition safe_cast (bits : Z) (x : f64) : res Z :=
  if is_nan x then Ok (- 2 ^ (bits - 1))
  else if is_finite x && (snd (Bfrexp x) <=? bits - 1) then f_to_Z bits x
  else Ok (if Bsign x then - 2 ^ (bits - 1) else 2 ^ (bits - 1) - 1).
(** element/to_unit.h 32-38: [round<T>] for integral T, on an integer (converted to double by the subtraction or addition)
    and on a double *)
Definition round_int (bits p : Z) : res Z :=
  safe_cast bits (if p <? 0 then fsub (f_of_Z p) f_half else fadd (f_of_Z p) f_half).
Definition round_double (bits : Z) (y : f64) : res Z :=
  safe_cast bits (if fltb y (f_of_Z 0) then fsub y f_half else fadd y f_half).
(** element/to_unit.h 50-52, 61-63: one element; the product of two int64_t is undefined when it overflows *)
Definition convert (bits x : Z) (sv : scale_var) : res Z :=
  match sv with
  | SInt k => do p <- int_val 64 (x * k); round_int bits p
  | SDouble s => round_double bits (fmul (f_of_Z x) s)
  end.

(** to_unit.cpp 30-67 for one element. [same]: the units are equal; [none]: one of them is none; [s]: the factor from
    [quick_convert]; [days]: one of the units is a day or longer, or not a time (18-27). *)
Definition to_unit (dt : int_dtype) (same none : bool) (s : f64) (days : bool) (x : Z) : res Z :=
  if same then Ok x
  else if none then Throw UnitError
  else if is_nan s then Throw UnitError
  else if (match dt with TimePoint => days | _ => false end) then Throw UnitError
  else
    do sv <- scale_of (match dt with I32 => false | _ => true end) s;
    convert (dtype_bits dt) x sv.
