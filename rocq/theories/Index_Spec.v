(** Specification vocabulary for iteration. The address of the [k]-th element in row-major order of an iteration
    shape [sh] for an operand with strides [st] is [dot st (index_at sh k)] (Dims_Spec.v). *)
From Verif Require Import Base Dims_Spec Index_Model.

Definition address (sh st : list Z) (k : Z) : Z := dot st (index_at sh k).

(** Addresses of the [k]-th element in all operands. *)
Definition addresses (sh : list Z) (sts : list (list Z)) (k : Z) : list Z := map (fun st => address sh st k) sts.

Definition nonneg (l : list Z) : Prop := Forall (fun n => 0 <= n) l.

(** All operands are broadcast (stride zero) along dimension [d]. *)
Definition all_zero (sts : list (list Z)) (d : nat) : Prop := forall st, In st sts -> nth d st 0 = 0.

(** Condition under which the dimensions may be flattened the way multi_index.cpp does it: apart from the
    outermost dimension, there must not be a dimension of extent other than one such that it and everything
    between it and the innermost dimension is broadcast in all operands - unless the innermost is as well. *)
Definition flattening_safe (sh : list Z) (sts : list (list Z)) : Prop :=
  all_zero sts (length sh - 1) \/
  forall d, (0 < d < length sh - 1)%nat -> (forall i, (d <= i < length sh - 1)%nat -> all_zero sts i) -> nth d sh 0 = 1.

(** Histories of a [ViewIndex]: only increments before the end and jumps to valid positions. *)
Inductive vop := VInc | VSet (k : Z).
Definition vstep (v : vindex) (o : vop) : vindex := match o with VInc => vi_increment v | VSet k => vi_set_index v k end.
Definition vpos (p : Z) (o : vop) : Z := match o with VInc => p + 1 | VSet k => k end.
Inductive vallowed (total : Z) : Z -> list vop -> Prop :=
| va_nil p : vallowed total p []
| va_inc p os : p < total -> vallowed total (p + 1) os -> vallowed total p (VInc :: os)
| va_set p k os : 0 <= k <= total -> vallowed total k os -> vallowed total p (VSet k :: os).

(** The same histories for a [MultiIndex]. *)
Definition mstep (m : mindex) (o : vop) : mindex := match o with VInc => mi_increment m | VSet k => mi_set_index m k end.
