(** Model of histogramming: lib/core/include/scipp/core/element/histogram.h 38-91, lib/dataset/histogram.cpp 28-94 and
    lib/dataset/bins.cpp 322-363.

    Weights are of a type [W] with addition and zero: a number, or a value with a variance (histogram.h 20-29 adds both).
    Events are pairs of a coordinate and a weight, i.e. one [subspan] of the coordinate and of the data. [sum] over the
    dummy dimension is a sum from left to right (for reductions in chunks see C14). Units, promotion of the coordinate type,
    non-contiguous input and the dimensions kept by the result are not part of this model. *)
From Verif Require Import Base Float Numeric_Model Lookup_Model TargetBins_Model.

Section Histogram.
Context {W : Type}.
Variable zero : W.
Variable add : W -> W -> W.

(** histogram.h 66-71 and 74-79: [iadd] into the bin of every event *)
Fixpoint hist_loop {C} (bin : C -> res Z) (data : list W) (events : list (C * W)) : res (list W) :=
  match events with
  | [] => Ok data
  | (x, w) :: r => do b <- bin x; if 0 <=? b then do v <- vget data b; do data' <- vset data b (add v w); hist_loop bin data' r else hist_loop bin data r
  end.
(** histogram.h 61-80; [nbin = edges.size() - 1] (histogram.cpp 81), which is no size for an empty array of edges. *)
Definition hist {C} (linspace sorted : bool) (lin srt : C -> res Z) (nbin : Z) (events : list (C * W)) : res (list W) :=
  if nbin <? 0 then Throw DimensionError
  else let data := repeat zero (Z.to_nat nbin) in
       if linspace then hist_loop lin data events else if sorted then hist_loop srt data events else Throw BinEdgeError.
Definition hist_int (edges : list Z) (events : list (Z * W)) : res (list W) :=
  hist (islinspace_int edges) (sortedb edges) (get_bin_int 64 edges) (fun x => bin_sorted (fun e => x <? e) edges) (zlen edges - 1) events.
(** [std::is_sorted]: no element is less than its predecessor *)
Fixpoint sortedb_f64 (l : list f64) : bool := match l with a :: (b :: _) as l' => negb (fltb b a) && sortedb_f64 l' | _ => true end.
Definition hist_f64 (edges : list f64) (events : list (f64 * W)) : res (list W) :=
  hist (islinspace_f64 edges) (sortedb_f64 edges) (get_bin_f64 64 edges) (fun x => bin_sorted (fun e => fltb x e) edges) (zlen edges - 1) events.

(** lib/dataset/data_array.cpp [masked_data]: masked weights are replaced by zero. *)
Definition masked_data {C} (events : list (C * W * bool)) : list (C * W) := map (fun e => (fst (fst e), if snd e : bool then zero else snd (fst e))) events.

Fixpoint add_rows (a b : list W) : list W := match a, b with x :: a', y :: b' => add x y :: add_rows a' b' | _, _ => [] end.
Fixpoint map_res {A B} (f : A -> res B) (l : list A) : res (list B) := match l with [] => Ok [] | a :: r => do b <- f a; do bs <- map_res f r; Ok (b :: bs) end.
(** bins.cpp 332-362 for the input bins along the dimension of the edges. [large]: the concatenation of 339-345 is used. *)
Definition hist_bins {E} (kernel : list E -> res (list W)) (nbin : Z) (large : bool) (bins : list (list E)) : res (list W) :=
  if large then kernel (concat bins)
  else do rows <- map_res kernel bins; Ok (fold_left add_rows rows (repeat zero (Z.to_nat nbin))).
(** histogram.cpp 50-86: large tables are split into bins for threading. *)
Definition hist_table {E} (kernel : list E -> res (list W)) (nbin : Z) (one_dim : bool) (table : list E) : res (list W) :=
  if one_dim && (100000 <? zlen table) then hist_bins kernel nbin false (map (slice_range table) (pretend_bins (zlen table)))
  else kernel table.
End Histogram.
