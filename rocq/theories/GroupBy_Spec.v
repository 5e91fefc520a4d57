(** Specification vocabulary for group-by operations. *)
From Verif Require Import Base Map_Model Dims_Model Dims_Spec View_Model View_Spec Transform_Spec Accumulate_Model Accumulate_Spec Mask_Model Mask_Spec.

(** The positions in a list of ranges. *)
Definition positions (g : list (Z * Z)) : list Z := flat_map (fun s => zseq (fst s) (Z.to_nat (snd s - fst s))) g.
(** The element at position [i] of the key satisfies [p]. *)
Definition key_at {K} (p : K -> bool) (key : list K) (i : Z) : bool :=
  match nth_error key (Z.to_nat i) with Some x => p x | None => false end.
(** The positions of the elements of the key that satisfy [p], in order. *)
Definition where_key {K} (p : K -> bool) (key : list K) : list Z := filter (key_at p key) (zseq 0 (length key)).

(** [less] is a strict weak order and [eq] holds for values of which neither is less. *)
Record key_order {K} (eq less : K -> K -> bool) : Prop := {
  ko_irr : forall a, less a a = false;
  ko_trans : forall a b c, less a b = true -> less b c = true -> less a c = true;
  ko_eq : forall a b, eq a b = true <-> less a b = false /\ less b a = false;
  ko_eq_trans : forall a b c, eq a b = true -> eq b c = true -> eq a c = true }.

(** Like [accumulates] of Mask_Spec, with the remaining dimensions in any order. *)
Definition accumulates_any {A} (reserved : list Dim) (f : A -> A -> A) (acc : darr A -> darr A -> res (darr A)) : Prop :=
  forall (out other : darr A) dim n, well_formed out -> well_formed other -> has (dd other) dim n ->
  (forall k x, has (dd out) k x <-> has (dd other) k x /\ k <> dim) -> (forall l, In l reserved -> ~ In l (labels (dd other))) ->
  exists r, acc out other = Ok r /\ dd r = dd out /\ well_formed r /\
    forall ix, inside (dd out) ix -> dv r ix = fold_left f (map (dv other) (along ix dim n)) (dv out ix).

(** [less] and [le] are a total order of the good values (all but NaN); other values are in no bin. *)
Record edge_order {K} (good : K -> bool) (less le : K -> K -> bool) : Prop := {
  eo_le : forall a b, good a = true -> good b = true -> le a b = negb (less b a);
  eo_trans : forall a b c, good a = true -> good b = true -> good c = true -> le a b = true -> le b c = true -> le a c = true;
  eo_total : forall a b, good a = true -> good b = true -> less a b = true -> le a b = true;
  eo_bad : forall a b, good a = false -> less a b = false /\ le b a = false }.
(** The value [x] is in the bin [g]: not below its left edge and below its right edge. *)
Definition in_bin {K} (less le : K -> K -> bool) (edges : list K) (g : nat) (x : K) : bool :=
  match nth_error edges g, nth_error edges (S g) with Some l, Some r => le l x && less x r | _, _ => false end.

(** The data have the dimension [dim] between the dimensions [p1] and [p2], the label [gdim] of the groups is not used by
    these, and the masks can be applied. *)
Record groupable {A} (reserved : list Dim) (data : darr A) (p1 p2 : list (Dim * Z)) (dim : Dim) (n : Z) (gdim : Dim) (l : list (Z * mask)) : Prop := {
  gb_data : well_formed data;
  gb_dims : pairs (dd data) = p1 ++ (dim, n) :: p2;
  gb_reserved : forall x, In x reserved -> ~ In x (labels (dd data));
  gb_masks : forall k m, In (k, m) l -> well_formed (k_arr m);
  gb_applicable : applicable l dim data;
  gb_valid : gdim <> InvalidDim;
  gb_before : ~ In gdim (keys p1);
  gb_after : ~ In gdim (keys p2) }.
(** The indices along [dim] through [ix] that are not masked and where the key satisfies [p]. *)
Definition selected {K} (p : K -> bool) (key : list K) (l : list (Z * mask)) (dim : Dim) (n : Z) (ix : Dim -> Z) : list (Dim -> Z) :=
  filter (fun jx => key_at p key (jx dim) && negb (masked l dim jx)) (along ix dim n).
