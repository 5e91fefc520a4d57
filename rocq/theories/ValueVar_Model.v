(** Model of value/variance pairs: lib/core/include/scipp/core/value_and_variance.h and the kernels using them in
    lib/core/include/scipp/core/element/{arithmetic,math}.h. Generic in the number type; the theorems use the real numbers
    (idealised [double]) and Flocq's binary64. Mixed operand types ([float] with [double], integers) are left out. *)
From Verif Require Import Base.

(** value_and_variance.h 21-63 *)
Record vv (T : Type) := mkvv { value : T; variance : T }.
Arguments mkvv {T}. Arguments value {T}. Arguments variance {T}.

(** The operations of the number type. *)
Record num (T : Type) := mknum { n_add : T -> T -> T; n_sub : T -> T -> T; n_mul : T -> T -> T; n_div : T -> T -> T; n_opp : T -> T; n_abs : T -> T; n_zero : T; n_one : T; n_eqb : T -> T -> bool; n_ltb : T -> T -> bool }.
Arguments n_add {T}. Arguments n_sub {T}. Arguments n_mul {T}. Arguments n_div {T}. Arguments n_opp {T}. Arguments n_abs {T}. Arguments n_zero {T}. Arguments n_one {T}. Arguments n_eqb {T}. Arguments n_ltb {T}.

Section Ops.
Context {T : Type}.
Variable N : num T.
Declare Scope num_scope.
Local Open Scope num_scope.
Infix "+" := (n_add N) : num_scope.
Infix "-" := (n_sub N) : num_scope.
Infix "*" := (n_mul N) : num_scope.
Infix "/" := (n_div N) : num_scope.
Implicit Types a b : vv T.

(** 65-68 *)
Definition vv_neg a : vv T := mkvv (n_opp N (value a)) (variance a).
(** 140-164: both operands with variances *)
Definition vv_add a b : vv T := mkvv (value a + value b) (variance a + variance b).
Definition vv_sub a b : vv T := mkvv (value a - value b) (variance a + variance b).
Definition vv_mul a b : vv T := mkvv (value a * value b) (variance a * value b * value b + variance b * value a * value a).
Definition vv_div a b : vv T := mkvv (value a / value b) ((variance a + variance b * (value a * value a) / (value b * value b)) / (value b * value b)).
(** 166-208: one operand without variances *)
Definition vv_add_l a (b : T) : vv T := mkvv (value a + b) (variance a).
Definition vv_add_r (a : T) b : vv T := mkvv (a + value b) (variance b).
Definition vv_sub_l a (b : T) : vv T := mkvv (value a - b) (variance a).
Definition vv_sub_r (a : T) b : vv T := mkvv (a - value b) (variance b).
Definition vv_mul_l a (b : T) : vv T := mkvv (value a * b) (variance a * b * b).
Definition vv_mul_r (a : T) b : vv T := mkvv (a * value b) (variance b * a * a).
Definition vv_div_l a (b : T) : vv T := mkvv (value a / b) (variance a / (b * b)).
Definition vv_div_r (a : T) b : vv T := mkvv (a / value b) (variance b * a * a / (value b * value b) / (value b * value b)).
(** 70-78. [pow_] is [numeric::pow], [pred]: [exponent - 1], [mag]: [std::abs(exponent)], [is_zero], [is_pos]: comparisons of
    the exponent with 0. *)
Definition vv_pow {E} (pow_ : T -> E -> T) (pred : E -> E) (mag : E -> T) (is_zero is_pos : E -> bool) a (e : E) : vv T :=
  let pow_1 := pow_ (value a) (pred e) in
  let var_factor := mag e * pow_1 in
  let pow_0 := if n_eqb N (value a) (n_zero N) && is_zero e then n_one N
               else if n_eqb N (value a) (n_zero N) && is_pos e then n_zero N else pow_1 * value a in
  mkvv pow_0 (var_factor * var_factor * variance a).
(** 80-84; [quarter] is 0.25 *)
Definition vv_sqrt (sqrt_ : T -> T) (quarter : T) a : vv T := mkvv (sqrt_ (value a)) (quarter * (variance a / value a)).
(** 86-89 *)
Definition vv_abs a : vv T := mkvv (n_abs N (value a)) (variance a).
(** 91-95 *)
Definition vv_exp (exp_ : T -> T) a : vv T := let val := exp_ (value a) in mkvv val (val * val * variance a).
(** 97-100 *)
Definition vv_log (log_ : T -> T) a : vv T := mkvv (log_ (value a)) (variance a / (value a * value a)).
(** 102-107; [ln10] is [std::log(10)] *)
Definition vv_log10 (log10_ : T -> T) (ln10 : T) a : vv T := let x := value a * ln10 in mkvv (log10_ (value a)) (variance a / (x * x)).
(** element/math.h 105-108 *)
Definition vv_reciprocal a : vv T := vv_div_r (n_one N) a.
(** 298-306 *)
Definition vv_min a b : vv T := if n_ltb N (value a) (value b) then a else b.
Definition vv_max a b : vv T := if n_ltb N (value b) (value a) then a else b.

(** An element of an operand: with or without variance (transform.h 65-73), and the operators on them. *)
Inductive elem := Plain (x : T) | With (x : vv T).
Definition e_value (e : elem) : T := match e with Plain x => x | With x => value x end.
Definition e_variance (e : elem) : option T := match e with Plain _ => None | With x => Some (variance x) end.
Definition lift2 (f : T -> T -> T) (fvv : vv T -> vv T -> vv T) (fl : vv T -> T -> vv T) (fr : T -> vv T -> vv T) (a b : elem) : elem :=
  match a, b with Plain x, Plain y => Plain (f x y) | With x, With y => With (fvv x y) | With x, Plain y => With (fl x y) | Plain x, With y => With (fr x y) end.
Definition e_add := lift2 (n_add N) vv_add vv_add_l vv_add_r.
Definition e_sub := lift2 (n_sub N) vv_sub vv_sub_l vv_sub_r.
Definition e_mul := lift2 (n_mul N) vv_mul vv_mul_l vv_mul_r.
Definition e_div := lift2 (n_div N) vv_div vv_div_l vv_div_r.

(** lib/variable/arithmetic.cpp 22-68 on the elements of two operands: [same] says that both operands are the same view of
    the same buffer ([is_same]), [pow2], [pow0] are the results of [pow] with exponents 2 and 0. The unit is handled in
    Variance_Model. *)
Definition e_is_with (e : elem) : bool := match e with With _ => true | Plain _ => false end.
Definition e_pow (powf : vv T -> T -> vv T) (plain : T -> T -> T) (a : elem) (e : T) : elem := match a with With x => With (powf x e) | Plain x => Plain (plain x e) end.
Section Binary.
Variable powf : vv T -> T -> vv T.
Variable plain_pow : T -> T -> T.
Variable two : T.
Definition correlated (same : bool) (a b : elem) : bool := e_is_with a && e_is_with b && same.
Definition op_add (same : bool) (a b : elem) : elem := if correlated same a b then e_mul a (Plain two) else e_add a b.
Definition op_sub (same : bool) (a b : elem) : elem := if correlated same a b then e_mul a (Plain (n_zero N)) else e_sub a b.
Definition op_mul (same : bool) (a b : elem) : elem := if correlated same a b then e_pow powf plain_pow a two else e_mul a b.
Definition op_div (same : bool) (a b : elem) : elem := if correlated same a b then e_pow powf plain_pow a (n_zero N) else e_div a b.
End Binary.
End Ops.
Arguments Plain {T}. Arguments With {T}.
