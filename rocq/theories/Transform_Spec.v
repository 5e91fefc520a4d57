(** Specification vocabulary for element-wise operations. *)
From Verif Require Import Base Map_Model Dims_Model Dims_Spec View_Model View_Spec Transform_Model.

(** The value of an operand at a labelled index. *)
Definition value_at {A} (h : heap A) (a : arr) (ix : Dim -> Z) : A := h (a_buf a, vaddr (a_var a) ix).

(** The index [ix] is within the labelled shape [d]. *)
Definition inside (d : sizes) (ix : Dim -> Z) : Prop := valid_at (pairs d) ix.

(** [c] is a cell of some element of [a]. *)
Definition cell_of (a : arr) (c : cell) : Prop := exists ix, inside (a_dims a) ix /\ c = (a_buf a, vaddr (a_var a) ix).

(** Different elements are different cells. *)
Definition distinct_elements (a : arr) : Prop :=
  forall ix ix', inside (a_dims a) ix -> inside (a_dims a) ix' -> vaddr (a_var a) ix = vaddr (a_var a) ix' ->
  same_at (pairs (a_dims a)) ix ix'.

(** How a range may be divided for parallel execution: consecutive blocks. *)
Inductive tiles : Z -> Z -> list (Z * Z) -> Prop :=
| tiles_nil b : tiles b b []
| tiles_cons b m e bs : b <= m -> tiles m e bs -> tiles b e ((b, m) :: bs).

(** The heap when all threads have ended, for some order of their steps. *)
Definition may_end {A} (h : heap A) (progs : list (list (instr A))) (h' : heap A) : Prop :=
  exists sched, finished (run_threads sched (h, start progs)) /\ fst (run_threads sched (h, start progs)) = h'.

(** No two operands disagree on the extent of a dimension. *)
Definition compatible (ds : list sizes) : Prop := forall a b, In a ds -> In b ds -> ~ conflict a b.

(** The shape of the result: the dimensions of all operands. *)
Definition union_of (ds : list sizes) (d : sizes) : Prop := forall k n, has d k n <-> exists e, In e ds /\ has e k n.

(** The views of other variables that the overlap check of [transform_in_place] gets wrong: at least one dimension,
    all of stride zero, and the only element is also an element of the output, which has more than one. *)
Definition hidden_alias (out b : arr) : Prop :=
  a_buf out = a_buf b /\ a_dims b <> mempty /\ Forall (fun s => s = 0) (v_strides (a_var b)) /\
  1 < volume (a_dims out) /\ cell_of out (a_buf b, v_offset (a_var b)).
