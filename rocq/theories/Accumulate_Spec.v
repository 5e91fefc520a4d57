(** Specification vocabulary for reductions. *)
From Verif Require Import Base Map_Model Dims_Model Dims_Spec View_Model View_Spec Transform_Model Transform_Spec.

(** All indices of the shape [m] in row-major order, and those that agree with [ix] in the dimensions of [d]. *)
Definition indices (m : sizes) : list (Dim -> Z) := map (index_of m) (zseq 0 (Z.to_nat (volume m))).
Definition agreeing (m d : sizes) (ix : Dim -> Z) : list (Dim -> Z) :=
  filter (fun jx => forallb (fun l => jx l =? ix l) (labels d)) (indices m).

(** The elements of [a] along the dimension [k] are different memory (or there is just one). *)
Definition backed (a : arr) (k : Dim) : Prop :=
  exists i s, nth_error (labels (a_dims a)) i = Some k /\ nth_error (v_strides (a_var a)) i = Some s /\ s <> 0.
(** No dimension is stretched in all operands, as it is when summing over a dimension that was added by broadcast. *)
Definition all_backed (ops : list arr) : Prop :=
  forall a k n, In a ops -> has (a_dims a) k n -> n <> 1 -> exists b, In b ops /\ backed b k.
