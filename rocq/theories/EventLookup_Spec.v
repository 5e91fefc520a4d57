(** Vocabulary for the lookup of function values. *)
From Verif Require Import Base Map_Model Dims_Model Dims_Spec View_Spec Transform_Spec Accumulate_Spec Accumulate_Model Mask_Model Mask_Spec EventLookup_Model.

(** The dimension [dim] is the innermost one. *)
Definition inner (d : sizes) (dim : Dim) : Prop := exists s, labels d = s ++ [dim].

(** The function: [n] values along [dim], the coordinate has [m] values along [dim] and, apart from that, only dimensions of the
    data. Both are contiguous along [dim]. The masks depending on [dim] fit the data and have [dim] as innermost dimension. *)
Record function_fine {E W} (data : source W) (coord : source E) (l : list (Z * mask)) (dim : Dim) (n m : Z) : Prop := {
  fn_data : well_formed (s_arr data);
  fn_coord : well_formed (s_arr coord);
  fn_n : has (dd (s_arr data)) dim n;
  fn_m : has (dd (s_arr coord)) dim m;
  fn_dims : forall k j, has (dd (s_arr coord)) k j -> k <> dim -> has (dd (s_arr data)) k j;
  fn_stride : stride_of data dim = 1 /\ stride_of coord dim = 1;
  fn_masks : (forall k b, In (k, b) l -> well_formed (k_arr b)) /\ applicable l dim (s_arr data);
  fn_inner : forall k b, In (k, b) l -> In dim (labels (k_dims b)) -> inner (k_dims b) dim /\ inner (dd (s_arr data)) dim }.

(** The points at which the function is evaluated may have further dimensions (also [dim]), but no extent different from the
    one of the function. *)
Definition points_fine {E W} (x : darr E) (data : source W) (dim : Dim) : Prop :=
  well_formed x /\ forall k i j, k <> dim -> has (dd x) k i -> has (dd (s_arr data)) k j -> i = j.
Definition result_dims {W} (d dx : sizes) (data : source W) (dim : Dim) : Prop :=
  forall k j, has d k j <-> has dx k j \/ (has (dd (s_arr data)) k j /\ k <> dim).

(** Value [i] of the function for the other indices [ix]: the fill value if masked. *)
Definition value_of {W} (data : source W) (l : list (Z * mask)) (dim : Dim) (fill : W) (ix : Dim -> Z) (i : Z) : W :=
  if masked l dim (put ix dim i) then fill else dv (s_arr data) (put ix dim i).
Definition coord_of {E} (coord : source E) (dim : Dim) (ix : Dim -> Z) (i : Z) : E := dv (s_arr coord) (put ix dim i).

(** [r] is the value of the bin that contains the point, or [fill] if no bin does. [contains a b]: the bin with the edges [a]
    and [b] contains it. *)
Definition value_in_bins {E W} (contains : E -> E -> Prop) (edge : Z -> E) (value : Z -> W) (n : Z) (fill r : W) : Prop :=
  (forall i, 0 <= i < n -> contains (edge i) (edge (i + 1)) -> r = value i) /\
  ((forall i, 0 <= i < n -> ~ contains (edge i) (edge (i + 1))) -> r = fill).
(** [r] is the value of the last point that is not greater, or [fill] if there is none. *)
Definition value_before {E W} (not_greater : E -> Prop) (point : Z -> E) (value : Z -> W) (n : Z) (fill r : W) : Prop :=
  (forall i, 0 <= i < n -> not_greater (point i) -> (forall j, i < j < n -> ~ not_greater (point j)) -> r = value i) /\
  ((forall i, 0 <= i < n -> ~ not_greater (point i)) -> r = fill).
