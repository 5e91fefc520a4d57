(** Specification vocabulary for concatenation. *)
From Verif Require Import Base Map_Model Dims_Model Dims_Spec View_Model View_Spec Transform_Model Transform_Spec.

Definition ashape (a : arr) : lshape := pairs (a_dims a).

(** The length an input contributes along [dim], and the position at which input [i] starts. *)
Definition part (dim : Dim) (a : arr) : Z := match extent (ashape a) dim with Some n => n | None => 1 end.
Definition start_of (dim : Dim) (l : list arr) (i : nat) : Z := sumZ (map (part dim) (firstn i l)).
Definition total (dim : Dim) (l : list arr) : Z := sumZ (map (part dim) l).

(** The order of dimensions: that of the first input with [dim]; otherwise [dim] is added to the left of the first input. *)
Fixpoint concat_base (dim : Dim) (l : list arr) : option lshape :=
  match l with
  | [] => None
  | a :: l' => if mem dim (keys (ashape a)) then Some (ashape a) else concat_base dim l'
  end.
Definition concat_shape (dim : Dim) (l : list arr) : lshape :=
  map (fun e => if fst e =? dim then (dim, total dim l) else e)
    (match concat_base dim l with Some p => p | None => (dim, 1) :: match l with a :: _ => ashape a | [] => [] end end).

(** The dimensions of an input other than [dim] are dimensions of the result. *)
Definition fits_in (dim : Dim) (l : list arr) (a : arr) : Prop :=
  forall k n, In (k, n) (ashape a) -> k <> dim -> In (k, n) (concat_shape dim l).

(** No element. *)
Definition empty_shape (p : lshape) : Prop := exists k, In (k, 0) p.
