(** Conversion by a rational factor [p / q], stated over the integers and the reals, without reference to the model. *)
From Coq Require Import ZArith Reals.
From Flocq Require Import Core.
Local Open Scope Z_scope.

(** [n] is an integer nearest to [x * p / q] *)
Definition nearest (x p q n : Z) : Prop := 2 * Z.abs (n * q - x * p) <= q.
(** the value of a saturating signed integer of [bits] bits *)
Definition saturated (bits n : Z) : Z := Z.max (- 2 ^ (bits - 1)) (Z.min (2 ^ (bits - 1) - 1) n).
(** [v] is [p / q] up to a relative error of 2^-51, four half units in the last place *)
Definition approximates (v : R) (p q : Z) : Prop :=
  (Rabs (v - IZR p / IZR q) <= bpow radix2 (-51) * (IZR p / IZR q))%R.
