(** Model of cumulative sums: lib/core/include/scipp/core/element/cumulative.h, lib/variable/cumulative.cpp.

    The accumulated variable and the output are lists of elements in memory order. [accumulate_in_place] with a non-const
    second operand runs in one thread (accumulate.h 112-121, and the operand [cumulative] has stride 0): a loop over pairs of
    positions, one in [cumulative] and one in [out]. Units and the choice of the element type are not part of this model:
    sums are of type [S] (double for float elements), elements of type [E]. *)
From Verif Require Import Base.

Section Scan.
Context {S E : Type}.
Variable plus minus : S -> E -> S.
Variable conv : S -> E.
(** cumulative.h 16-22: [sum += x; x = sum - x] *)
Definition exclusive_scan (sum : S) (x : E) : S * E := let sum' := plus sum x in (sum', conv (minus sum' x)).
(** cumulative.h 24-30: [sum += x; x = sum] *)
Definition inclusive_scan (sum : S) (x : E) : S * E := let sum' := plus sum x in (sum', conv sum').
(** [accumulate_in_place(cumulative, out, op)] *)
Fixpoint scan (op : S -> E -> S * E) (order : list (Z * Z)) (acc : list S) (out : list E) : res (list S * list E) :=
  match order with
  | [] => Ok (acc, out)
  | (a, p) :: order' =>
    do s <- vget acc a; do x <- vget out p;
    do acc' <- vset acc a (fst (op s x)); do out' <- vset out p (snd (op s x));
    scan op order' acc' out'
  end.
Definition scan_op (inclusive : bool) := if inclusive then inclusive_scan else exclusive_scan.
Variable zero : S.
(** cumulative.cpp 21-34. The dimension has extent [n], those before it volume [outer] and those after it volume [inner];
    [out] is a fresh copy with contiguous memory. *)
Definition dim_order (outer n inner : Z) : list (Z * Z) :=
  map (fun k => (k / (n * inner) * inner + k mod inner, k)) (zseq 0 (Z.to_nat (outer * n * inner))).
Definition cumsum_dim (inclusive : bool) (outer n inner : Z) (var : list E) : res (list E) :=
  if n =? 0 then Ok var
  else do r <- scan (scan_op inclusive) (dim_order outer n inner) (repeat zero (Z.to_nat (outer * inner))) var; Ok (snd r).
(** cumulative.cpp 36-46 *)
Definition cumsum (inclusive : bool) (var : list E) : res (list E) :=
  do r <- scan (scan_op inclusive) (map (fun k => (0, k)) (zseq 0 (length var))) [zero] var; Ok (snd r).
(** cumulative.cpp 48-60; [indices]: the begin and end of every bin in the buffer *)
Definition bin_order (indices : list (Z * Z)) : list (Z * Z) :=
  flat_map (fun i => map (fun p => (i, p)) (zseq (fst (nth (Z.to_nat i) indices (0, 0))) (Z.to_nat (snd (nth (Z.to_nat i) indices (0, 0)) - fst (nth (Z.to_nat i) indices (0, 0))))))
    (zseq 0 (length indices)).
Definition cumsum_bins (inclusive : bool) (indices : list (Z * Z)) (buffer : list E) : res (list E) :=
  do r <- scan (scan_op inclusive) (bin_order indices) (repeat zero (length indices)) buffer; Ok (snd r).
End Scan.
