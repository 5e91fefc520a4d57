(** Specification vocabulary for slicing by label. *)
From Verif Require Import Base.

(** [leb] orders the values that satisfy [P] (for floating-point numbers: those that are not NaN). *)
Definition orders {A} (P : A -> Prop) (leb : A -> A -> bool) : Prop :=
  (forall a b, P a -> P b -> leb a b = true \/ leb b a = true) /\
  forall a b c, P a -> P b -> P c -> leb a b = true -> leb b c = true -> leb a c = true.

(** The order along an ascending ([up]) or descending coord; [lt]: strictly before. *)
Definition le {A} (leb : A -> A -> bool) (up : bool) (a b : A) : Prop := (if up then leb a b else leb b a) = true.
Definition lt {A} (leb : A -> A -> bool) (up : bool) (a b : A) : Prop := le leb up a b /\ ~ le leb up b a.

(** [xs] is a list of [n] values [c i]. *)
Definition lists {A} (xs : list A) (n : Z) (c : Z -> A) : Prop := zlen xs = n /\ forall i, 0 <= i < n -> nth_error xs (Z.to_nat i) = Some (c i).
Definition monotone {A} (leb : A -> A -> bool) (up : bool) (n : Z) (c : Z -> A) : Prop := forall i, 0 <= i -> i + 1 < n -> le leb up (c i) (c (i + 1)).
(** The direction of a coord; a single element counts as ascending. *)
Definition direction {A} (leb : A -> A -> bool) (up : bool) (n : Z) (c : Z -> A) : Prop :=
  (n = 1 /\ up = true) \/ (monotone leb up n c /\ ~ monotone leb (negb up) n c).
