(** What transforms do. *)
From Coq Require Import Reals.
From Verif Require Import Base Spatial_Model.
Local Open Scope R_scope.

(** Rotation by a quaternion: [q v q*], with the product of Hamilton written out. *)
Definition hamilton (a b : R * R * R * R) : R * R * R * R :=
  let '(a0, a1, a2, a3) := a in let '(b0, b1, b2, b3) := b in
  (a0 * b0 - a1 * b1 - a2 * b2 - a3 * b3, a0 * b1 + a1 * b0 + a2 * b3 - a3 * b2, a0 * b2 - a1 * b3 + a2 * b0 + a3 * b1, a0 * b3 + a1 * b2 - a2 * b1 + a3 * b0).
Definition normalized (q : quat) : Prop := qw q * qw q + vx (qv q) * vx (qv q) + vy (qv q) * vy (qv q) + vz (qv q) * vz (qv q) = 1.
Definition rotated (q : quat) (v w : vec) : Prop :=
  hamilton (hamilton (qw q, vx (qv q), vy (qv q), vz (qv q)) (0, vx v, vy v, vz v)) (qw q, - vx (qv q), - vy (qv q), - vz (qv q)) = (0, vx w, vy w, vz w).
(** Matrix times vector: the sum of the columns times the components. *)
Definition linear (m : mat) (v w : vec) : Prop :=
  vx w = vx (c0 m) * vx v + vx (c1 m) * vy v + vx (c2 m) * vz v /\
  vy w = vy (c0 m) * vx v + vy (c1 m) * vy v + vy (c2 m) * vz v /\
  vz w = vz (c0 m) * vx v + vz (c1 m) * vy v + vz (c2 m) * vz v.
Definition translated (t v w : vec) : Prop := vx w = vx v + vx t /\ vy w = vy v + vy t /\ vz w = vz v + vz t.
Definition does (a : transform) (v w : vec) : Prop :=
  match a with Rot q => rotated q v w | Lin m => linear m v w | Trans t => translated t v w | Aff m t => exists x, linear m v x /\ translated t x w end.
(** Rotations are given by normalized quaternions; the determinant of linear parts is not zero. *)
Definition proper_rotation (a : transform) : Prop := match a with Rot q => normalized q | _ => True end.
Definition determinant (m : mat) : R :=
  vx (c0 m) * (vy (c1 m) * vz (c2 m) - vz (c1 m) * vy (c2 m)) - vx (c1 m) * (vy (c0 m) * vz (c2 m) - vz (c0 m) * vy (c2 m)) + vx (c2 m) * (vy (c0 m) * vz (c1 m) - vz (c0 m) * vy (c1 m)).
Definition invertible (a : transform) : Prop := match a with Rot q => normalized q | Lin m | Aff m _ => determinant m <> 0 | Trans _ => True end.
