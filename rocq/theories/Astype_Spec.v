(** The numbers that elements stand for. *)
From Coq Require Import Reals.
From Flocq Require Import Core BinarySingleNaN.
From Verif Require Import Base Astype_Model.
Local Open Scope R_scope.

(** Real numbers and two infinities; NaN is no number. *)
Inductive ext := Minus | Fin (r : R) | Plus.
Definition ext_le (a b : ext) : Prop := match a, b with Minus, _ | _, Plus => True | Fin x, Fin y => x <= y | _, _ => False end.
Definition ext_lt (a b : ext) : Prop := ext_le a b /\ a <> b.
Definition float_number {p e} (x : binary_float p e) : option ext :=
  match x with B754_nan => None | B754_infinity s => Some (if s then Minus else Plus) | _ => Some (Fin (B2R x)) end.
Definition number (v : value) : option ext :=
  match v with
  | VDouble x => float_number x
  | VFloat x => float_number x
  | VInt64 z | VInt32 z => Some (Fin (IZR z))
  | VBool b => Some (Fin (if b then 1 else 0))
  | VOther _ _ => None
  end.
(** Values that exist: integers fit their type. *)
Definition valid (v : value) : Prop :=
  match v with VInt64 z => (- 2 ^ 63 <= z < 2 ^ 63)%Z | VInt32 z => (- 2 ^ 31 <= z < 2 ^ 31)%Z | VOther _ _ => False | _ => True end.
(** Every value of the first type is one of the second. *)
Definition wider (a b : dtype) : Prop :=
  match a, b with Bool, (Double | Float | Int64 | Int32) | Int32, (Int64 | Double) | Float, Double => True | _, _ => False end.
