(** What the operations along one dimension (Subspan_Model) should compute, in terms of elements at labelled indices only. *)
From Verif Require Import Base Map_Model Dims_Model View_Model View_Spec Reshape_Model Reshape_Spec.

(** The elements along [dim] at the position [ix] of the other dimensions. *)
Definition line {A} (x : varr A) (dim : Dim) (n : Z) (ix : lindex) : list A :=
  map (fun i => val x (put ix dim i)) (zseq 0 (Z.to_nat n)).

(** [x] has the dimension [dim] of size [n] and the other dimensions [q], in their order. *)
Definition along {A} (x : varr A) (dim : Dim) (n : Z) (q : lshape) : Prop :=
  exists p1 p2, vshape x = p1 ++ (dim, n) :: p2 /\ q = p1 ++ p2.

(** Shapes: all of [q] is part of [m]; labels of both have the same size. *)
Definition within (q m : lshape) : Prop := forall e, In e q -> In e m.
Definition agree (q r : lshape) : Prop := forall k n m, In (k, n) q -> In (k, m) r -> n = m.

(** The dimension along which the events of a coord named [dim] lie: that of a 1-D coord, otherwise [dim]. *)
Definition event_dim (dim : Dim) (coord : lshape) (e : Dim) : Prop := keys coord = [e] \/ (1 < zlen coord /\ e = dim).
