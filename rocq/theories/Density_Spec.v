(** What counts and densities are. *)
From Coq Require Import Reals.
From Verif Require Import Base Units_Spec Density_Model.
Local Open Scope R_scope.

(** The width of the bin at [p] along [d]: next edge minus edge. *)
Definition width (c : coord) (d : Z) (p : pos) : R := c_val c (fun k => if (k =? d)%Z then (p k + 1)%Z else p k) - c_val c p.
(** [c] has bin edges along [d] for data of shape [s]: one more along [d], and otherwise dimensions of [s]. *)
Definition edges_for (s : shape) (d : Z) (c : coord) : Prop :=
  NoDup (map fst (c_shape c)) /\ (exists n, In (d, n) s /\ (0 <= n)%Z /\ In (d, (n + 1)%Z) (c_shape c)) /\
  forall k n, In (k, n) (c_shape c) -> k <> d -> In (k, n) s.
(** One coord per dimension. *)
Definition coords_for (cs : list (Z * coord)) (s : shape) (ds : list Z) (cl : list coord) : Prop :=
  NoDup (map fst cs) /\ NoDup (map fst s) /\ Forall2 (fun d c => In (d, c) cs /\ edges_for s d c) ds cl.
(** The volume of the cell at [p]. *)
Fixpoint volume (cl : list coord) (ds : list Z) (p : pos) : R :=
  match cl, ds with c :: cl', d :: ds' => width c d p * volume cl' ds' p | _, _ => 1 end.
(** The quantity: number and dimension, see [Units_Spec]. *)
Fixpoint cell (cl : list coord) (ds : list Z) (p : pos) : quantity :=
  match cl, ds with
  | c :: cl', d :: ds' => qmul (meaning (c_unit c, width c d p)) (cell cl' ds' p)
  | _, _ => Phys 1 (fun _ => 0%Z)
  end.
Definition value (m : memory) (x : data) (p : pos) : quantity := meaning (fst (m (d_obj x)), snd (m (d_obj x)) p).
(** The exponents of the base units of [u]. *)
Definition exponent (u : option (R * list Z)) (i : nat) : Z := match u with Some (_, es) => nth i es 0%Z | None => 0%Z end.
(** Dividing by units one after the other keeps all exponents in the limits of the library. *)
Fixpoint divisible (lims : list (Z * Z)) (e : nat -> Z) (us : list (option (R * list Z))) : Prop :=
  match us with
  | [] => True
  | u :: us' => (forall i l, nth_error lims i = Some l -> (fst l <= e i - exponent u i <= snd l)%Z) /\ divisible lims (fun i => (e i - exponent u i)%Z) us'
  end.
(** The coords have units, other than the dimensionless unit. *)
Definition units_ok (lims : list (Z * Z)) (cl : list coord) : Prop :=
  Forall (fun c => proper_unit lims (c_unit c) /\ c_unit c <> None /\ c_unit c <> Some (1, repeat 0%Z 10)) cl.
