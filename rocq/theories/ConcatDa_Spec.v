(** Specification vocabulary for the concatenation of data arrays. *)
From Verif Require Import Base Map_Model Dims_Model Dims_Spec View_Model View_Spec Transform_Model Transform_Spec Concat_Spec SizedDict_Model SizedDict_Spec ConcatDa_Model.

(** The dimensions other than [dim], in order. *)
Definition rest (dim : Dim) (a : arr) : lshape := filter (fun e => negb (fst e =? dim)) (ashape a).

Section Spec.
Context {A : Type} (eqb eqb_nan : A -> A -> bool).

(** The last edges of [a] are the first edges of [b]. *)
Definition meets (w : world (A := A)) (dim : Dim) (a b : arr) : Prop :=
  w_unit w (a_buf a) = w_unit w (a_buf b) /\ rest dim a = rest dim b /\
  forall ix, valid_at (rest dim a) ix ->
    eqb (value_at (w_heap w) a (put ix dim (part dim a - 1))) (value_at (w_heap w) b (put ix dim 0)) = true.

(** Bin edges that can be joined: every input has at least one edge, consecutive inputs meet, and every input but the first and
    the last has at least one bin. *)
Definition joinable (w : world (A := A)) (dim : Dim) (l : list arr) : Prop :=
  (forall a, In a l -> 1 <= part dim a) /\
  (forall i a b, nth_error l i = Some a -> nth_error l (S i) = Some b -> meets w dim a b) /\
  (forall i a, nth_error l (S i) = Some a -> (S (S i) < length l)%nat -> 2 <= part dim a).

(** The number of bins before input [i]. *)
Definition bins_before (dim : Dim) (l : list arr) (i : nat) : Z := sumZ (map (fun a => part dim a - 1) (firstn i l)).

(** Edges [o] in memory [h'] are those of all inputs in memory [h]: the edges of input [i] are found after the bins of the inputs
    before it; the first edge of an input is that of the input before it, which compares equal. *)
Definition joined (h h' : heap A) (dim : Dim) (l : list arr) (o : arr) : Prop :=
  forall i a ix j, nth_error l i = Some a -> inside (a_dims o) ix -> ix dim = bins_before dim l i + j -> 0 <= j < part dim a ->
    (0 < j \/ i = O -> value_at h' o ix = value_at h a (put ix dim j)) /\
    (j = 0 -> i <> O -> eqb (value_at h' o ix) (value_at h a (put ix dim 0)) = true).

(** ** Dictionaries *)
(** The length of input [m] along [dim], and the position at which input [i] starts. *)
Definition len (dim : Dim) (m : sdict) : Z := match extent (sd_shape m) dim with Some n => n | None => 1 end.
Definition begin_of (dim : Dim) (maps : list sdict) (i : nat) : Z := sumZ (map (len dim) (firstn i maps)).
Definition holds (m : sdict) (key : Z) (it : item) : Prop := In (key, it) (sd_list m).

(** What the result [o] of one key has to be, for the inputs [maps] in memory [h]. Either the item of every input is bin edges
    along [dim], and the bins of the result are those of the inputs, or none is. Then the result has, in the block of every input, the
    elements of its item, or it does not depend on [dim] and compares equal to the items of all inputs. The other dimensions are
    those of the items. *)
Definition entry_shape (dim : Dim) (maps : list sdict) (key : Z) (o : item) : Prop :=
  (forall m it, In m maps -> holds m key it -> edge_dim (sd_shape m) it dim -> In (dim, begin_of dim maps (length maps) + 1) (ishape o)) /\
  (forall m it, In m maps -> holds m key it -> ~ edge_dim (sd_shape m) it dim -> In dim (keys (ishape o)) -> In (dim, begin_of dim maps (length maps)) (ishape o)) /\
  (forall k n, k <> dim -> (In (k, n) (ishape o) <-> exists m it, In m maps /\ holds m key it /\ In (k, n) (ishape it))).
Definition entry_spec (h h' : heap A) (dim : Dim) (maps : list sdict) (key : Z) (o : item) : Prop :=
  entry_shape dim maps key o /\
  (forall i m it, nth_error maps i = Some m -> holds m key it -> edge_dim (sd_shape m) it dim ->
     forall ix j, inside (i_dims o) ix -> ix dim = begin_of dim maps i + j -> 0 <= j <= len dim m ->
     (0 < j \/ i = O -> value_at h' (arr_of o) ix = value_at h (arr_of it) (put ix dim j)) /\
     (j = 0 -> i <> O -> eqb (value_at h' (arr_of o) ix) (value_at h (arr_of it) (put ix dim 0)) = true)) /\
  (forall i m it, nth_error maps i = Some m -> holds m key it -> ~ edge_dim (sd_shape m) it dim ->
     forall ix, inside (i_dims o) ix ->
     (In dim (keys (ishape o)) -> begin_of dim maps i <= ix dim < begin_of dim maps i + len dim m ->
        value_at h' (arr_of o) ix = value_at h (arr_of it) (put ix dim (ix dim - begin_of dim maps i))) /\
     (~ In dim (keys (ishape o)) -> ishape it = ishape o /\
        (value_at h' (arr_of o) ix = value_at h (arr_of it) ix \/ eqb_nan (value_at h (arr_of it) ix) (value_at h' (arr_of o) ix) = true))).
End Spec.
