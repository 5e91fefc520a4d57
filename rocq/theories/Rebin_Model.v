(** Model of rebinning of histograms: lib/core/include/scipp/core/element/rebin.h 20-64 (data contiguous along the rebinned
    dimension) and lib/variable/rebin.cpp 20-69 (other memory layouts), lib/variable/rebin.cpp 92-175.

    Edges are of a type [T], contents of a type [W] (a number, or a value with a variance), both with the arithmetic used by
    the code; one row along the rebinned dimension with one-dimensional edges. Units, conversions between number types and the
    transpositions of other dimensions are not part of this model. *)
From Verif Require Import Base Lookup_Model.

Section Rebin.
Context {T W : Type}.
(** [Less] or [Greater] *)
Variable less : T -> T -> bool.
Variable sub div : T -> T -> T.
Variable abs : T -> T.
Variable zero : W.
Variable add : W -> W -> W.
Variable scale : W -> T -> W.

(** [std::min], [std::max] with a comparison *)
Definition min_by (a b : T) : T := if less b a then b else a.
Definition max_by (a b : T) : T := if less a b then b else a.
(** rebin.h 46-49, rebin.cpp 39-43 *)
Definition fraction (xn_low xn_high xo_low xo_high : T) : T :=
  div (abs (sub (min_by xn_high xo_high) (max_by xn_low xo_low))) (abs (sub xo_high xo_low)).

(** rebin.h 33-63 *)
Fixpoint rebin_loop (xnew : list T) (data_old : list W) (xold : list T) (fuel : nat) (iold inew : Z) (data_new : list W) : res (list W) :=
  match fuel with
  | O => Ub
  | S fuel' =>
    if (iold <? zlen xold - 1) && (inew <? zlen xnew - 1) then
      do xo_low <- vget xold iold; do xo_high <- vget xold (iold + 1);
      do xn_low <- vget xnew inew; do xn_high <- vget xnew (inew + 1);
      if negb (less xo_low xn_high) then rebin_loop xnew data_old xold fuel' iold (inew + 1) data_new
      else if negb (less xn_low xo_high) then rebin_loop xnew data_old xold fuel' (iold + 1) inew data_new
      else
        do o <- vget data_old iold; do n <- vget data_new inew;
        do data' <- vset data_new inew (add n (scale o (fraction xn_low xn_high xo_low xo_high)));
        if less xo_high xn_high then rebin_loop xnew data_old xold fuel' (iold + 1) inew data'
        else rebin_loop xnew data_old xold fuel' iold (inew + 1) data'
    else Ok data_new
  end.
Definition rebin_inner (xnew : list T) (data_old : list W) (xold : list T) : res (list W) :=
  rebin_loop xnew data_old xold (S (length xold + length xnew)) 0 0 (repeat zero (Z.to_nat (zlen xnew - 1))).

(** rebin.cpp 34-44 *)
Definition add_from_bin (data_old : list W) (xold : list T) (acc : W) (xn_low xn_high : T) (iold : Z) : res W :=
  do xo_low <- vget xold iold; do xo_high <- vget xold (iold + 1); do o <- vget data_old iold;
  Ok (add acc (scale o (fraction xn_low xn_high xo_low xo_high))).
(** rebin.cpp 45-59; [sum_into] adds from left to right (for reductions in chunks see C14). *)
Definition accumulate_bin (data_old : list W) (xold : list T) (xn_low xn_high : T) : res W :=
  let oldSize := zlen xold - 1 in
  do begin <- upper_bound (less xn_low) xold;
  do end_ <- upper_bound (less xn_high) xold;
  if (begin =? oldSize + 1) || (end_ =? 0) then Ok zero
  else
    let begin := Z.max 0 (begin - 1) in
    do acc <- add_from_bin data_old xold zero xn_low xn_high begin;
    let acc := if begin + 1 <? end_ - 1 then fold_left add (firstn (Z.to_nat (end_ - 1 - (begin + 1))) (skipn (Z.to_nat (begin + 1)) data_old)) acc else acc in
    if negb (begin =? end_ - 1) && (end_ <? oldSize + 1) then add_from_bin data_old xold acc xn_low xn_high (end_ - 1) else Ok acc.
(** rebin.cpp 60-69; the new bins are independent of each other. *)
Fixpoint rebin_non_inner (xnew : list T) (data_old : list W) (xold : list T) : res (list W) :=
  match xnew with
  | a :: (b :: _) as xnew' => do v <- accumulate_bin data_old xold a b; do r <- rebin_non_inner xnew' data_old xold; Ok (v :: r)
  | _ => Ok []
  end.
End Rebin.

Section Dispatch.
Context {T W : Type}.
Variable lt : T -> T -> bool.
Variable sub div : T -> T -> T.
Variable abs : T -> T.
Variable zero : W.
Variable add : W -> W -> W.
(** rebin.h 57-61 and rebin.cpp 38-41: how a content is scaled; the two differ for variances *)
Variable scale scale' : W -> T -> W.
(** [allsorted] ascending with respect to [l] *)
Fixpoint sorted_by (l : T -> T -> bool) (x : list T) : bool := match x with a :: (b :: _) as x' => negb (l b a) && sorted_by l x' | _ => true end.
(** rebin.cpp 92-175: [inner]: the data have stride 1 along the dimension *)
Definition rebin (inner : bool) (xnew : list T) (data_old : list W) (xold : list T) : res (list W) :=
  if negb (zlen xold =? zlen data_old + 1) then Throw BinEdgeError
  else if zlen xnew <? 1 then Throw DimensionError
  else
    let gt := fun a b => lt b a in
    let run less := if inner then rebin_inner less sub div abs zero add scale xnew data_old xold
                    else rebin_non_inner less sub div abs zero add scale' xnew data_old xold in
    if sorted_by lt xold && sorted_by lt xnew then run lt
    else if sorted_by gt xold && sorted_by gt xnew then run gt
    else Throw BinEdgeError.
End Dispatch.
