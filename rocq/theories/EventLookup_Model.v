(** Model of the lookup of function values for the coordinates of events: [buckets::map], [buckets::scale] and
    [lookup_previous]. [E] is the element type of the coordinates, [W] the one of the function values ("weights"). *)
From Verif Require Import Base Map_Model Dims_Model View_Spec Transform_Model SizedDict_Model Accumulate_Spec Accumulate_Model Mask_Model
  Numeric_Model Lookup_Model Mapper_Model.
Notation mapM := Mapper_Model.mapM.

(** lib/core/include/scipp/core/element/event_operations.h. [lt x e] is [x < e]; [bin] the result of [get_bin]. *)
(** 87-93: [map_linspace] *)
Definition map_linspace {W} (bin : res Z) (weights : list W) (fill : W) : res W :=
  do b <- bin; if b <? 0 then Ok fill else vget weights b.
(** 95-102: [map_sorted_edges] *)
Definition map_sorted_edges {E W} (lt : E -> E -> bool) (coord : E) (edges : list E) (weights : list W) (fill : W) : res W :=
  do it <- upper_bound (lt coord) edges;
  if (it =? zlen edges) || (it =? 0) then Ok fill else vget weights (it - 1).
(** 104-109: [lookup_previous] *)
Definition previous {E W} (lt : E -> E -> bool) (point : E) (x : list E) (weights : list W) (fill : W) : res W :=
  do it <- upper_bound (lt point) x;
  if it =? 0 then Ok fill else vget weights (it - 1).
(** 139-147, 149-157: [map_and_mul_linspace] and [map_and_mul_sorted_edges]; [zero] is [0.0]. *)
Definition mul_linspace {W} (mul : W -> W -> W) (zero : W) (bin : res Z) (weights : list W) (data : W) : res W :=
  do b <- bin; if b <? 0 then Ok (mul data zero) else do w <- vget weights b; Ok (mul data w).
Definition mul_sorted_edges {E W} (lt : E -> E -> bool) (mul : W -> W -> W) (zero : W) (x : E) (edges : list E) (weights : list W) (data : W) : res W :=
  do it <- upper_bound (lt x) edges;
  if (it =? zlen edges) || (it =? 0) then Ok (mul data zero) else do w <- vget weights (it - 1); Ok (mul data w).

(** A labelled array with the memory stride of one dimension; [None]: freshly computed, dimensions in C order. *)
Record source (A : Type) := mksource { s_arr : darr A; s_stride : option Z }.
Arguments mksource {A}. Arguments s_arr {A}. Arguments s_stride {A}.

Fixpoint inner_volume (dim : Dim) (ls : list Dim) (ns : list Z) : Z :=
  match ls, ns with
  | l :: ls', n :: ns' => if l =? dim then prodZ ns' else inner_volume dim ls' ns'
  | _, _ => 1
  end.
Definition stride_of {A} (a : source A) (dim : Dim) : Z :=
  match s_stride a with Some s => s | None => inner_volume dim (labels (dd (s_arr a))) (shape (dd (s_arr a))) end.

(** lib/variable/subspan_view.cpp 60-97: the dimensions of the array of spans, and the span at an index. The stride of a
    label that is not there is a [DimensionError] (core/strides, [Variable::stride]). *)
Definition span {A} (a : darr A) (dim : Dim) (n : Z) (ix : Dim -> Z) : list A := map (fun i => dv a (put ix dim i)) (zseq 0 (Z.to_nat n)).
Definition subspan_view {A} (a : source A) (dim : Dim) : res (sizes * ((Dim -> Z) -> list A)) :=
  do n <- dat (dd (s_arr a)) dim;
  if negb (stride_of a dim =? 1) then Throw DimensionError
  else do d <- merase Z.eqb (dd (s_arr a)) dim; Ok (d, span (s_arr a) dim n).

(** lib/dataset/operations.cpp 118-127: [masked_data]; [fill_unit]: the fill value has the unit of the data, required by
    [where] (core/element/util.h 135-148). *)
Definition masked_data {A} (fill_unit : bool) (data : source A) (l : list (Z * mask)) (dim : Dim) (fill : A) : res (source A) :=
  do m <- irreducible_mask l dim;
  match m with
  | Some m => do w <- where_ m fill (s_arr data); if fill_unit then Ok (mksource w None) else Throw UnitError
  | None => Ok data
  end.

(** [variable::all] of a test of the elements along [dim], as in lib/variable/util.cpp 46-50, 60-84 ([islinspace],
    [allsorted]; both work for any stride). [issorted] is true for less than two elements and otherwise tests
    [left <= right] (core/element/util.h 83-86) of all neighbours. *)
Definition all_along {A} (test : list A -> bool) (a : darr A) (dim : Dim) : res bool :=
  do n <- dat (dd a) dim; do d <- merase Z.eqb (dd a) dim;
  Ok (forallb (fun ix => test (span a dim n ix)) (indices d)).
Definition sorted_span {E} (le : E -> E -> bool) (l : list E) : bool := no_adjacent (fun a b => negb (le a b)) l.

(** [variable::transform] into a new variable of dimensions [d]. *)
Definition eval {W} (d : sizes) (dflt : W) (g : (Dim -> Z) -> res W) : res (darr W) :=
  do _ <- mapM g (indices d);
  Ok (mkd d (fun ix => match g ix with Ok w => w | _ => dflt end)).

Section Functions.
Context {E W : Type}.
(** [x < y], [x <= y], the element functions [islinspace] and [get_bin]. *)
Variables (lt le : E -> E -> bool) (islin : list E -> bool) (bin : list E -> E -> res Z).

(** lib/dataset/bins.cpp 365-385. [same_unit]: the units of [x] and the edges agree, [fill_unit]: those of data and fill value
    agree (the unit functor of the transform and of [where]); [fill_dtype]: the dtype of the fill value is the one of the data
    (63-78, [make_fill]). [fill] is the fill value, or what [make_fill] chooses. *)
Definition buckets_map (same_unit fill_unit fill_dtype : bool) (data : source W) (coord : source E) (l : list (Z * mask))
    (x : darr E) (dim : Dim) (fill : W) : res (darr W) :=
  if negb fill_dtype then Throw TypeError else
  do e <- is_edges (dd (s_arr data)) (dd (s_arr coord)) dim;
  if negb e then Throw BinEdgeError else
  do masked <- masked_data fill_unit data l dim fill;
  do ws <- subspan_view masked dim;
  do lin <- all_along islin (s_arr coord) dim;
  do _ <- (if lin then Ok tt else do s <- all_along (sorted_span le) (s_arr coord) dim; if s then Ok tt else Throw BinEdgeError);
  do cs <- subspan_view coord dim;
  if negb (same_unit && fill_unit) then Throw UnitError else
  do d1 <- dims_merge (dd x) (fst cs); do d2 <- dims_merge d1 (fst ws); do d <- dims_merge d2 mempty;
  eval d fill (fun ix => if lin then map_linspace (bin (snd cs ix) (dv x ix)) (snd ws ix) fill
                         else map_sorted_edges lt (dv x ix) (snd cs ix) (snd ws ix) fill).

(** bins.cpp 203-217 *)
Definition lookup_previous (same_unit fill_unit fill_dtype : bool) (data : source W) (coord : source E) (l : list (Z * mask))
    (x : darr E) (dim : Dim) (fill : W) : res (darr W) :=
  if negb fill_dtype then Throw TypeError else
  do masked <- masked_data fill_unit data l dim fill;
  do ws <- subspan_view masked dim;
  do s <- all_along (sorted_span le) (s_arr coord) dim;
  if negb s then Throw DataArrayError else
  do cs <- subspan_view coord dim;
  if negb (same_unit && fill_unit) then Throw UnitError else
  do d1 <- dims_merge (dd x) (fst cs); do d2 <- dims_merge d1 (fst ws); do d <- dims_merge d2 mempty;
  eval d fill (fun ix => previous lt (dv x ix) (snd cs ix) (snd ws ix) fill).

(** bins.cpp 395-409, after the checks of coordinates and masks: the events of bin [ix] are the pairs (data, coordinate)
    [dv events ix]; [transform_in_place] requires that the spans have no dimension that the binned data do not have
    (variable/transform.h 654). *)
Definition scale_events (mul : W -> W -> W) (zero : W) (same_unit : bool) (events : darr (list (W * E))) (data : source W) (coord : source E)
    (l : list (Z * mask)) (dim : Dim) : res (darr (list (W * E))) :=
  do masked <- masked_data true data l dim zero;
  do ws <- subspan_view masked dim;
  do lin <- all_along islin (s_arr coord) dim;
  do _ <- (if lin then Ok tt else do s <- all_along (sorted_span le) (s_arr coord) dim; if s then Ok tt else Throw BinEdgeError);
  do cs <- subspan_view coord dim;
  do i1 <- includes (dd events) (fst cs); do i2 <- includes (dd events) (fst ws);
  if negb (i1 && i2) then Throw DimensionError else
  if negb same_unit then Throw UnitError else
  eval (dd events) [] (fun ix => mapM (fun e => do w <- (if lin then mul_linspace mul zero (bin (snd cs ix) (snd e)) (snd ws ix) (fst e)
                                                         else mul_sorted_edges lt mul zero (snd e) (snd cs ix) (snd ws ix) (fst e));
                                                Ok (w, snd e)) (dv events ix)).
End Functions.
