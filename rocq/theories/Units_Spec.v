(** Quantities: what a number with a unit means, independent of the choice of unit. *)
From Coq Require Import ZArith Reals List.
From Flocq Require Import Core.
Import ListNotations.
Local Open Scope R_scope.

(** a bare number (no unit), or a number in terms of the base units and the power of each base unit *)
Inductive quantity := Bare (x : R) | Phys (x : R) (dim : nat -> Z).
(** a multiplier and exponents, or none *)
Definition meaning (v : option (R * list Z) * R) : quantity :=
  match fst v with None => Bare (snd v) | Some (m, es) => Phys (snd v * m) (fun i => nth i es 0%Z) end.
Definition same (p q : quantity) : Prop :=
  match p, q with
  | Bare x, Bare y => x = y
  | Phys x d, Phys y d' => x = y /\ forall i, d i = d' i
  | _, _ => False
  end.
(** the two can be added and compared *)
Definition commensurable (p q : quantity) : Prop :=
  match p, q with Bare _, Bare _ => True | Phys _ d, Phys _ d' => forall i, d i = d' i | _, _ => False end.
Definition number (q : quantity) : R := match q with Bare x => x | Phys x _ => x end.
Definition lift (f : R -> R -> R) (d : Z -> Z -> Z) (p q : quantity) : quantity :=
  match p, q with Phys x e, Phys y e' => Phys (f x y) (fun i => d (e i) (e' i)) | _, _ => Bare (f (number p) (number q)) end.
Definition qadd := lift Rplus (fun a _ => a).
Definition qsub := lift Rminus (fun a _ => a).
Definition qmod := lift (fun x y => x - IZR (Zfloor (x / y)) * y) (fun a _ => a).
Definition qmul := lift Rmult Z.add.
Definition qdiv := lift Rdiv Z.sub.
Definition qfloordiv := lift (fun x y => IZR (Zfloor (x / y))) Z.sub.
Definition qpow (n : Z) (p : quantity) : quantity :=
  match p with Bare x => Bare (powerRZ x n) | Phys x e => Phys (powerRZ x n) (fun i => (e i * n)%Z) end.
(** units of a library with exponents within limits: a positive multiplier, exponents in their ranges *)
Definition proper_limits (lims : list (Z * Z)) : Prop := length lims = 10%nat /\ Forall (fun l => (fst l <= 0 <= snd l)%Z) lims.
Definition proper_unit (lims : list (Z * Z)) (u : option (R * list Z)) : Prop :=
  match u with None => True | Some (m, es) => 0 < m /\ Forall2 (fun l e => (fst l <= e <= snd l)%Z) lims es end.
