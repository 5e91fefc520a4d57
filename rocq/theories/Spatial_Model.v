(** Model of spatial transforms: lib/core/include/scipp/core/spatial_transforms.h, lib/variable/arithmetic.cpp 17-62 ([operator*]),
    lib/core/include/scipp/core/element/arithmetic.h 99-172, lib/variable/inv.cpp, lib/core/include/scipp/core/element/to_unit.h 53-60.

    Real numbers instead of doubles, one element instead of an array. The formulas of Eigen are those of its documentation. *)
From Coq Require Import Reals.
From Verif Require Import Base Units_Model.
Local Open Scope R_scope.

Record vec := mkv { vx : R; vy : R; vz : R }.
Definition vadd (a b : vec) : vec := mkv (vx a + vx b) (vy a + vy b) (vz a + vz b).
Definition vscale (s : R) (a : vec) : vec := mkv (s * vx a) (s * vy a) (s * vz a).
Definition cross (a b : vec) : vec := mkv (vy a * vz b - vz a * vy b) (vz a * vx b - vx a * vz b) (vx a * vy b - vy a * vx b).
(** Eigen::Matrix3d by columns *)
Record mat := mkm { c0 : vec; c1 : vec; c2 : vec }.
Definition mv (m : mat) (v : vec) : vec := vadd (vadd (vscale (vx v) (c0 m)) (vscale (vy v) (c1 m))) (vscale (vz v) (c2 m)).
Definition mm (a b : mat) : mat := mkm (mv a (c0 b)) (mv a (c1 b)) (mv a (c2 b)).
Definition det (m : mat) : R := vx (c0 m) * vx (cross (c1 m) (c2 m)) + vy (c0 m) * vy (cross (c1 m) (c2 m)) + vz (c0 m) * vz (cross (c1 m) (c2 m)).
(** Eigen: inverse by cofactors for 3x3 matrices; the rows of the inverse are c1 x c2 / det, c2 x c0 / det, c0 x c1 / det *)
Definition minv (m : mat) : mat :=
  let r0 := vscale (/ det m) (cross (c1 m) (c2 m)) in
  let r1 := vscale (/ det m) (cross (c2 m) (c0 m)) in
  let r2 := vscale (/ det m) (cross (c0 m) (c1 m)) in
  mkm (mkv (vx r0) (vx r1) (vx r2)) (mkv (vy r0) (vy r1) (vy r2)) (mkv (vz r0) (vz r1) (vz r2)).

(** Eigen::Quaterniond: product, inverse, rotation matrix, application to a vector ([_transformVector]) *)
Record quat := mkq { qw : R; qv : vec }.
Definition dot (a b : vec) : R := vx a * vx b + vy a * vy b + vz a * vz b.
Definition qprod (a b : quat) : quat :=
  mkq (qw a * qw b - dot (qv a) (qv b)) (vadd (vadd (vscale (qw a) (qv b)) (vscale (qw b) (qv a))) (cross (qv a) (qv b))).
Definition qnorm2 (a : quat) : R := qw a * qw a + dot (qv a) (qv a).
Definition qinv (a : quat) : quat := mkq (qw a / qnorm2 a) (vscale (- / qnorm2 a) (qv a)).
Definition rotmat (q : quat) : mat :=
  let w := qw q in let x := vx (qv q) in let y := vy (qv q) in let z := vz (qv q) in
  mkm (mkv (1 - (2 * y * y + 2 * z * z)) (2 * y * x + 2 * z * w) (2 * z * x - 2 * y * w))
      (mkv (2 * y * x - 2 * z * w) (1 - (2 * x * x + 2 * z * z)) (2 * z * y + 2 * x * w))
      (mkv (2 * z * x + 2 * y * w) (2 * z * y - 2 * x * w) (1 - (2 * x * x + 2 * y * y))).
Definition qapply (q : quat) (v : vec) : vec :=
  let uv := cross (qv q) v in let uv2 := vadd uv uv in vadd (vadd v (vscale (qw q) uv2)) (cross (qv q) uv2).

(** core::Quaternion, Eigen::Matrix3d, core::Translation, Eigen::Affine3d *)
Inductive transform := Rot (q : quat) | Lin (m : mat) | Trans (t : vec) | Aff (m : mat) (t : vec).
(** spatial_transforms.h 90-148 and the products of Eigen. An affine transform times a matrix: Eigen takes the matrix for three vectors
    (Transform::operator*: "a set of N points as a Dim x N matrix"), and the result is a matrix. *)
Definition prod_t (a b : transform) : transform :=
  match a, b with
  | Rot p, Rot q => Rot (qprod p q)
  | Rot q, Lin m => Lin (mm (rotmat q) m)
  | Lin m, Rot q => Lin (mm m (rotmat q))
  | Lin m, Lin n => Lin (mm m n)
  | Trans t, Trans s => Trans (vadd t s)
  | Rot q, Trans t => Aff (rotmat q) (mv (rotmat q) t)
  | Rot q, Aff m t => Aff (mm (rotmat q) m) (mv (rotmat q) t)
  | Lin m, Trans t => Aff m (mv m t)
  | Lin m, Aff n t => Aff (mm m n) (mv m t)
  | Trans t, Rot q => Aff (rotmat q) t
  | Trans t, Lin m => Aff m t
  | Trans s, Aff m t => Aff m (vadd t s)
  | Aff m t, Rot q => Aff (mm m (rotmat q)) t
  | Aff m t, Lin n => Lin (mkm (vadd (mv m (c0 n)) t) (vadd (mv m (c1 n)) t) (vadd (mv m (c2 n)) t))
  | Aff m t, Trans s => Aff m (vadd (mv m s) t)
  | Aff m t, Aff n s => Aff (mm m n) (vadd (mv m s) t)
  end.
Definition apply_t (a : transform) (v : vec) : vec :=
  match a with Rot q => qapply q v | Lin m => mv m v | Trans t => vadd v t | Aff m t => vadd (mv m v) t end.
(** inv.cpp 14-24: [transform.inverse()] *)
Definition inv_t (a : transform) : transform :=
  match a with Rot q => Rot (qinv q) | Lin m => Lin (minv m) | Trans t => Trans (vscale (-1) t) | Aff m t => Aff (minv m) (vscale (-1) (mv (minv m) t)) end.

Section Units.
Variable lims : limits.
(** arithmetic.cpp 17-20 *)
Definition with_translation (a : transform) : bool := match a with Trans _ | Aff _ _ => true | _ => false end.
(** arithmetic.cpp 50-62, for two transforms and for a transform and a vector; element/arithmetic.h 161-172 for the unit *)
Definition mult (a b : uunit * transform) : res (uunit * transform) :=
  do u <- (if with_translation (snd a) && with_translation (snd b) then unit_same (fst a) (fst b) else unit_mul lims (fst a) (fst b));
  Ok (u, prod_t (snd a) (snd b)).
Definition apply (a : uunit * transform) (v : uunit * vec) : res (uunit * vec) :=
  do u <- (if with_translation (snd a) then unit_same (fst a) (fst v) else unit_mul lims (fst a) (fst v));
  Ok (u, apply_t (snd a) (snd v)).
(** inv.cpp 27-49 *)
Definition inv (a : uunit * transform) : res (uunit * transform) :=
  do u <- (if with_translation (snd a) then Ok (fst a) else unit_div lims one (fst a)); Ok (u, inv_t (snd a)).
End Units.
(** element/to_unit.h 53-63: conversion by a factor *)
Definition rescale_t (s : R) (a : transform) : option transform :=
  match a with Trans t => Some (Trans (vscale s t)) | Aff m t => Some (Aff m (vscale s t)) | _ => None end.
