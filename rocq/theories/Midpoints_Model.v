(** Model of [midpoints] (lib/variable/math.cpp 10-31) and of the element function [midpoint]
    (lib/core/include/scipp/core/element/math.h 20-46, 178-193) in the branch for C++17 (lib/CMakeLists.txt 6).
    Variables are given by their values at labelled indices ([darr], C10). *)
From Verif Require Import Base Float Map_Model Dims_Model View_Model Accumulate_Model Numeric_Model.

(** element/math.h 23-33 for signed integers of [bits] bits: the difference is taken in unsigned integers, modulo 2^bits; other
    steps are undefined if the result is out of range. *)
Definition to_unsigned (bits z : Z) : Z := z mod 2 ^ bits.
Definition midpoint_int (bits a b : Z) : res Z :=
  let sign := if a >? b then -1 else 1 in
  let m := to_unsigned bits (if a >? b then b else a) in
  let M := to_unsigned bits (if a >? b then a else b) in
  do half <- int_val bits (to_unsigned bits (M - m) / 2);
  do p <- int_val bits (sign * half);
  int_val bits (a + p).

(** element/math.h 35-43 for [double]: twice the smallest normal number, half of the largest number. *)
Definition f_lo : f64 := f_make 1 (-1021).
Definition f_hi : f64 := f_make (2 ^ 53 - 1) 970.
Definition f_two : f64 := f_of_Z 2.
Definition midpoint_f64 (a b : f64) : f64 :=
  if fleb (fabs a) f_hi && fleb (fabs b) f_hi then fdiv (fadd a b) f_two
  else if fltb (fabs a) f_lo then fadd a (fdiv b f_two)
  else if fltb (fabs b) f_lo then fadd (fdiv a f_two) b
  else fadd (fdiv a f_two) (fdiv b f_two).

(** [x.slice({dim, b, e})]; [e = -1] is a slice at the point [b], which has no dimension [dim] *)
Definition part {A} (x : darr A) (dim : Dim) (b e : Z) : res (darr A) :=
  do s <- slice_range dim b e 1;
  do d <- sizes_slice (dd x) s;
  Ok (mkd d (fun ix => dv x (fun k => if k =? dim then (if e =? -1 then b else b + ix dim) else ix k))).

(** math.cpp 10-31, with the element function [mid]; element/math.h 180-181: variances are refused. [dim = None] is an argument
    that is not given. *)
Definition midpoints {A} (mid : A -> A -> A) (variances : bool) (x : darr A) (dim : option Dim) : res (darr A) :=
  if ndim (dd x) =? 0 then Throw DimensionError
  else
    do d <- match dim with Some d => Ok d | None => if negb (ndim (dd x) =? 1) then Throw InvalidArgument else Ok (dims_inner (dd x)) end;
    do len <- dat (dd x) d;
    if len =? 1 then Throw DimensionError
    else
      do lo <- part x d 0 (len - 1);
      do hi <- part x d 1 len;
      do dims <- dims_merge (dd lo) (dd hi);
      if variances then Throw VariancesError
      else Ok (mkd dims (fun ix => mid (dv lo ix) (dv hi ix))).
