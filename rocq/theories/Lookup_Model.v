(** Model of the lookup of the bin of a value in bin edges. *)
From Flocq Require Import BinarySingleNaN.
From Verif Require Import Base Float Numeric_Model.

(** [std::upper_bound] (libstdc++: bisection): [lt e] is [x < e]. *)
Fixpoint upper_bound_loop {E} (lt : E -> bool) (edges : list E) (fuel : nat) (first len : Z) : res Z :=
  match fuel with
  | O => Ub
  | S fuel' =>
    if len <=? 0 then Ok first
    else let half := Z.quot len 2 in
         do e <- vget edges (first + half);
         if lt e then upper_bound_loop lt edges fuel' first half
         else upper_bound_loop lt edges fuel' (first + half + 1) (len - half - 1)
  end.
Definition upper_bound {E} (lt : E -> bool) (edges : list E) : res Z :=
  upper_bound_loop lt edges (S (length edges)) 0 (Z.of_nat (length edges)).

(** lib/core/include/scipp/core/element/bin.h 71-83 and element/histogram.h 74-79: the bin, or -1. *)
Definition bin_sorted {E} (lt : E -> bool) (edges : list E) : res Z :=
  do it <- upper_bound lt edges;
  if (it =? 0) || (it =? Z.of_nat (length edges)) then Ok (-1) else Ok (it - 1).

(** lib/core/include/scipp/core/histogram.h 30-50: [lt e] is [x < e], [ge e] is [x >= e], [est] the value
    [(x - offset) * scale] converted to [Index]. *)
Definition get_bin {E} (lt ge : E -> bool) (nan : bool) (est : res Z) (edges : list E) : res Z :=
  let nbin := Z.of_nat (length edges) - 1 in
  do front <- vget edges 0; do back <- vget edges nbin;
  if lt front || ge back then Ok (-1)
  else if nan then Ok (-1)
  else
    do bin0 <- est;
    let bin := Z.max 0 (Z.min bin0 (nbin - 1)) in              (* [std::clamp] *)
    do e <- vget edges bin;
    if lt e then Ok (bin - 1)
    else do e' <- vget edges (bin + 1);
         if ge e' then Ok (bin + 1) else Ok bin.

(** histogram.h 14-21 and 41 for integers: [linear_edge_params] and the estimate. [bits] is the size of [Index]. *)
Definition estimate_int (bits : Z) (edges : list Z) (x : Z) : res Z :=
  do front <- vget edges 0; do back <- vget edges (Z.of_nat (length edges) - 1);
  do w <- int_val 64 (back - front); do z <- int_val 64 (x - front);
  f_to_Z bits (fmul (f_of_Z z) (fdiv (f_of_Z (Z.of_nat (length edges) - 1)) (f_of_Z w))).
Definition get_bin_int (bits : Z) (edges : list Z) (x : Z) : res Z :=
  get_bin (fun e => x <? e) (fun e => e <=? x) false (estimate_int bits edges x) edges.

(** The same for [double]. *)
Definition estimate_f64 (bits : Z) (edges : list f64) (x : f64) : res Z :=
  do front <- vget edges 0; do back <- vget edges (Z.of_nat (length edges) - 1);
  f_to_Z bits (fmul (fsub x front) (fdiv (f_of_Z (Z.of_nat (length edges) - 1)) (fsub back front))).
Definition get_bin_f64 (bits : Z) (edges : list f64) (x : f64) : res Z :=
  get_bin (fun e => fltb x e) (fun e => fleb e x) (is_nan x) (estimate_f64 bits edges x) edges.

(** element/bin.h 55-69, 71-83: the bin index is combined with the index [index] of the bin of the previous dimensions. *)
Definition update_index (index nbin : Z) (bin : res Z) : res Z :=
  if index =? -1 then Ok (-1) else do b <- bin; if b <? 0 then Ok (-1) else Ok (index * nbin + b).
