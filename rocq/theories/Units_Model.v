(** Units: lib/units/unit.cpp and unit.h, and the units of operations on data (lib/core/include/scipp/core/element,
    lib/core/include/scipp/core/transform_common.h, lib/variable).
    [llnl::units::precise_unit] belongs to an external library. Modelled as a multiplier and the exponents of the base
    units (unit.h 46-58), each exponent limited to a range [lims] (a bit field); multipliers are exact reals, whereas the
    library uses doubles and compares them after rounding. Flags and commodities are left out. *)
From Coq Require Import Reals.
From Flocq Require Import Core BinarySingleNaN.
From Verif Require Import Base Float.

Definition punit : Type := R * list Z.
(** [std::optional<precise_unit>], unit.h 69 *)
Definition uunit := option punit.
Definition limits := list (Z * Z).
Definition none : uunit := None.
(** ten base units (unit.h 46-58); [one] (unit.h 106) *)
Definition one : uunit := Some (1%R, repeat 0 10).

Fixpoint combine_with (f : Z -> Z -> Z) (a b : list Z) : list Z :=
  match a, b with x :: a', y :: b' => f x y :: combine_with f a' b' | _, _ => nil end.
Fixpoint in_limits (lims : limits) (es : list Z) : bool :=
  match lims, es with
  | (lo, hi) :: l', e :: es' => (lo <=? e) && (e <=? hi) && in_limits l' es'
  | nil, nil => true
  | _, _ => false
  end.
Definition punit_eqb (a b : punit) : bool := (if Req_EM_T (fst a) (fst b) then true else false) && (if list_eq_dec Z.eq_dec (snd a) (snd b) then true else false).
(** the library: product, quotient and their overflow checks; is_error(sqrt); pow *)
Definition ptimes (a b : punit) : punit := ((fst a * fst b)%R, combine_with Z.add (snd a) (snd b)).
Definition pdivides (a b : punit) : punit := ((fst a / fst b)%R, combine_with Z.sub (snd a) (snd b)).
Definition ppow (a : punit) (n : Z) : punit := (powerRZ (fst a) n, map (fun e => e * n) (snd a)).
Definition psqrt_error (a : punit) : bool := negb (forallb Z.even (snd a)).
Definition psqrt (a : punit) : punit := (sqrt (fst a), map (fun e => e / 2) (snd a)).
Definition overflows (lims : limits) (a : punit) : bool := negb (in_limits lims (snd a)).

(** unit.cpp 73-75: [operator==] *)
Definition unit_eqb (a b : uunit) : bool :=
  match a, b with None, None => true | Some p, Some q => punit_eqb p q | _, _ => false end.
Definition has_value (a : uunit) : bool := match a with Some _ => true | None => false end.
Definition underlying (a : uunit) : res punit := match a with Some p => Ok p | None => Throw OutOfRange end.
(** 89-100, 131-136: [operator+], binary [operator-], [operator%] *)
Definition unit_same (a b : uunit) : res uunit := if unit_eqb a b then Ok a else Throw UnitError.
(** 102-107 *)
Definition expect_not_none (a : uunit) : res unit := if has_value a then Ok tt else Throw UnitError.
(** 109-129: [operator*], [operator/] *)
Definition unit_mul (lims : limits) (a b : uunit) : res uunit :=
  if unit_eqb a none && unit_eqb b none then Ok none else
  do _ <- expect_not_none a; do _ <- expect_not_none b;
  do p <- underlying a; do q <- underlying b;
  if overflows lims (ptimes p q) then Throw UnitError else Ok (Some (ptimes p q)).
Definition unit_div (lims : limits) (a b : uunit) : res uunit :=
  if unit_eqb a none && unit_eqb b none then Ok none else
  do _ <- expect_not_none a; do _ <- expect_not_none b;
  do p <- underlying a; do q <- underlying b;
  if overflows lims (pdivides p q) then Throw UnitError else Ok (Some (pdivides p q)).
(** 138-146: unary [operator-], [abs], [floor], [ceil], [rint] return the unit itself *)
Definition unit_keep (a : uunit) : res uunit := Ok a.
(** 148-155 *)
Definition unit_sqrt (a : uunit) : res uunit :=
  if unit_eqb a none then Ok a else
  do p <- underlying a; if psqrt_error p then Throw UnitError else Ok (Some (psqrt p)).
(** 157-164; [static_cast<int>]: modulo 2^32 *)
Definition to_int (z : Z) : Z := (z + 2 ^ 31) mod 2 ^ 32 - 2 ^ 31.
Definition unit_pow (lims : limits) (a : uunit) (power : Z) : res uunit :=
  if unit_eqb a none then Ok a else
  do p <- underlying a;
  if overflows lims (ppow p (to_int power)) then Throw UnitError else Ok (Some (ppow p (to_int power))).
(** 166-171: [trigonometric]; 173-179: [inverse_trigonometric]; 197-203: [hyperbolic]; 187-195: [atan2] *)
Definition trigonometric (rad deg a : uunit) : res uunit := if unit_eqb a rad || unit_eqb a deg then Ok one else Throw UnitError.
Definition inverse_trigonometric (rad a : uunit) : res uunit := if unit_eqb a one then Ok rad else Throw UnitError.
Definition hyperbolic (a : uunit) : res uunit := if unit_eqb a one then Ok one else Throw UnitError.
Definition unit_atan2 (rad y x : uunit) : res uunit :=
  do _ <- expect_not_none x; do _ <- expect_not_none y; if unit_eqb x y then Ok rad else Throw UnitError.

(** ** units of operations on data *)
(** core::expect::equals for units *)
Definition expect_equals (a b : uunit) : res unit := if unit_eqb a b then Ok tt else Throw UnitError.
(** element/comparison.h 75-80 *)
Definition compare_unit (a b : uunit) : res uunit := do _ <- expect_equals a b; Ok none.
(** element/logical.h 19-23 *)
Definition logical_unit (a b : uunit) : res uunit := do _ <- expect_equals none a; do _ <- expect_equals none b; Ok none.
(** element/util.h 143-148 *)
Definition where_unit (cond x y : uunit) : res uunit := do _ <- expect_equals none cond; do _ <- expect_equals x y; Ok x.
(** transform_common.h 51-60: exp, log, log10, erf, erfc, pow *)
Definition dimensionless_unit (a : uunit) : res uunit := do _ <- expect_equals one a; Ok one.
(** element/math.h 105-108 *)
Definition reciprocal_unit (lims : limits) (a : uunit) : res uunit := unit_div lims one a.
(** element/comparison.h 28-33 and lib/variable/comparison.cpp 36-66: [isclose] for scalar elements; the unit of
    [atol + rtol * abs(b)] *)
Definition isclose_unit (lims : limits) (a b rtol atol : uunit) : res uunit :=
  do _ <- expect_equals (if unit_eqb atol none then none else one) rtol;
  do t <- unit_mul lims rtol b; do tol <- unit_same atol t;
  do _ <- expect_equals a b; do _ <- expect_equals a tol; Ok none.

(** ** pow, lib/variable/pow.cpp *)
(** the exponent: an integer or a double *)
Inductive exponent := EInt (n : Z) | EDouble (x : f64).
(** 36-49: [PowUnit]; the cast to int64_t is undefined for values that do not fit. [pow(base_unit, exp_val)] converts the
    exponent to int64_t again. *)
Definition pow_unit (lims : limits) (base : uunit) (e : exponent) : res uunit :=
  match e with
  | EInt n => unit_pow lims base n
  | EDouble x =>
      do n <- f_to_Z 64 x;
      if Beqb (f_of_Z n) x then unit_pow lims base n else Throw UnitError
  end.
(** 51-78: [pow_handle_unit] on a variable with unit and elements; [slice]: the output of an in-place operation is a
    slice of another variable; the state of the output after the call, and the outcome. *)
Definition pow_handle_unit {A} (lims : limits) (pow_values : A -> A) (slice : bool) (v : uunit * A) (exp_unit : uunit) (scalar : bool) (e : exponent) : (uunit * A) * res unit :=
  if negb (unit_eqb exp_unit one) then (v, Throw UnitError)
  else if unit_eqb (fst v) one then ((one, pow_values (snd v)), Ok tt)
  else if negb scalar then (v, Throw DimensionError)
  else if slice then (v, Throw UnitError)
  else
    let v' := (one, pow_values (snd v)) in
    match pow_unit lims (fst v) e with
    | Ok u => ((u, snd v'), Ok tt)
    | Throw x => (v', Throw x)
    | Ub => (v', Ub)
    end.
(** 106-109: the operation that returns a new variable *)
Definition pow_new_unit (lims : limits) (base exp_unit : uunit) (scalar : bool) (e : exponent) : res uunit :=
  let '((u, _), r) := pow_handle_unit lims (fun x : unit => x) false (base, tt) exp_unit scalar e in do _ <- r; Ok u.
(** lib/variable/arithmetic.cpp 22-28: [make_factor]; 38-68: the operators with an operand that has variances and itself *)
Definition factor_unit (a : uunit) : uunit := if unit_eqb a none then none else one.
Definition self_add_unit (lims : limits) (a : uunit) : res uunit := unit_mul lims a (factor_unit a).
Definition self_mul_unit (lims : limits) (a : uunit) : res uunit := pow_new_unit lims a (factor_unit a) true (EDouble (f_of_Z 2)).
Definition self_div_unit (lims : limits) (a : uunit) : res uunit := pow_new_unit lims a (factor_unit a) true (EDouble (f_of_Z 0)).

(** ** binary operations: unit.cpp and element/arithmetic.h 152-193 *)
Inductive bop := Add | Sub | Mul | Div | FloorDiv | Mod.
Definition bop_unit (lims : limits) (op : bop) (a b : uunit) : res uunit :=
  match op with
  | Add | Sub | Mod => unit_same a b
  | Mul => unit_mul lims a b
  | Div | FloorDiv => unit_div lims a b
  end.
(** the elements, over the reals (floor_divide and mod: numeric.h 62-79) *)
Definition bop_val (op : bop) (x y : R) : R :=
  match op with
  | Add => x + y | Sub => x - y | Mul => x * y | Div => x / y
  | FloorDiv => IZR (Zfloor (x / y)) | Mod => x - IZR (Zfloor (x / y)) * y
  end%R.
(** transform.h 408-433: a variable with one element; the unit is computed before the elements *)
Definition transform_bop (lims : limits) (op : bop) (a b : uunit * R) : res (uunit * R) :=
  do u <- bop_unit lims op (fst a) (fst b); Ok (u, bop_val op (snd a) (snd b)).
(** transform.h 650-682: in place; unit first, then [expect_can_set_unit] (variable.cpp 108-112), then elements and unit *)
Definition transform_in_place_bop (lims : limits) (op : bop) (slice : bool) (a b : uunit * R) : (uunit * R) * res unit :=
  match bop_unit lims op (fst a) (fst b) with
  | Ok u => if negb (unit_eqb (fst a) u) && slice then (a, Throw UnitError) else ((u, bop_val op (snd a) (snd b)), Ok tt)
  | Throw e => (a, Throw e)
  | Ub => (a, Ub)
  end.
(** element comparison [less], etc. *)
Definition less_data (a b : uunit * R) : res bool :=
  do _ <- compare_unit (fst a) (fst b); Ok (if Rlt_dec (snd a) (snd b) then true else false).
(** sqrt, reciprocal, exp *)
Definition sqrt_data (a : uunit * R) : res (uunit * R) := do u <- unit_sqrt (fst a); Ok (u, sqrt (snd a)).
Definition reciprocal_data (lims : limits) (a : uunit * R) : res (uunit * R) := do u <- reciprocal_unit lims (fst a); Ok (u, (1 / snd a)%R).
(** scipp-functions.cmake 7-14, 39-41: sin converts to rad first (over the reals: multiplied by the quotient of the
    multipliers; the conversion fails unless the exponents agree) *)
Definition sin_data (rad deg : uunit) (a : uunit * R) : res (uunit * R) :=
  do v <- (if unit_eqb rad (fst a) then Ok (snd a) else
           match fst a, rad with
           | Some p, Some r => if list_eq_dec Z.eq_dec (snd p) (snd r) then Ok (snd a * (fst p / fst r))%R else Throw UnitError
           | _, _ => Throw UnitError
           end);
  do u <- trigonometric rad deg rad; Ok (u, sin v).
