(** Vocabulary for masks. *)
From Verif Require Import Base Map_Model Dims_Model Dims_Spec View_Model View_Spec Transform_Model Transform_Spec SizedDict_Model SizedDict_Spec
  Accumulate_Spec Accumulate_Model Mask_Model.

(** The values of a labelled array depend on nothing but its own dimensions. *)
Definition well_formed {A} (a : darr A) : Prop :=
  wf (dd a) /\ forall jx jx', (forall l, In l (labels (dd a)) -> jx l = jx' l) -> dv a jx = dv a jx'.
Definition masks_fine (l : list (Z * mask)) : Prop := NoDup (map fst l) /\ forall k m, In (k, m) l -> well_formed (k_arr m).

(** The mask [k] of the dictionary is set at [ix]. *)
Definition set_at (l : list (Z * mask)) (k : Z) (ix : Dim -> Z) : bool :=
  existsb (fun e => (fst e =? k) && dv (k_arr (snd e)) ix) l.

(** Two masks can be combined. *)
Definition usable (m : mask) : Prop := k_bool m = true /\ k_none m = true.
Definition combinable (a b : list (Z * mask)) : Prop :=
  forall k m m', In (k, m) a -> In (k, m') b -> usable m /\ usable m' /\ ~ conflict (k_dims m) (k_dims m').

(** A mask can be updated in place by another one: it has all its dimensions, or is read-only and the other mask adds
    nothing. *)
Definition adds_nothing (m m' : mask) : Prop :=
  forall ix, inside (k_dims m) ix -> dv (k_arr m') ix = true -> dv (k_arr m) ix = true.
Definition within (m' m : mask) : Prop := forall k n, has (k_dims m') k n -> has (k_dims m) k n.
Definition updatable (d : masks) (b : list (Z * mask)) : Prop :=
  forall k m', In (k, m') b ->
  (forall m, In (k, m) (ditems (ms_items d)) -> usable m /\ usable m' /\ within m' m /\ (k_ro m = true -> adds_nothing m m')) /\
  (~ In k (map fst (ditems (ms_items d))) -> ms_ro d = false /\ fits (pairs (ms_sizes d)) (pairs (k_dims m'))).

(** The indices along the dimension [dim] through [ix]. *)
Definition along (ix : Dim -> Z) (dim : Dim) (n : Z) : list (Dim -> Z) := map (put ix dim) (zseq 0 (Z.to_nat n)).
(** Some mask that depends on [dim] is set. *)
Definition masked (l : list (Z * mask)) (dim : Dim) (jx : Dim -> Z) : bool :=
  existsb (fun e => mem dim (labels (k_dims (snd e))) && dv (k_arr (snd e)) jx) l.
Definition unmasked (l : list (Z * mask)) (dim : Dim) (js : list (Dim -> Z)) : list (Dim -> Z) :=
  filter (fun jx => negb (masked l dim jx)) js.
(** The masks depending on [dim] have no dimension (or extent) that the data do not have. *)
Definition applicable {A} (l : list (Z * mask)) (dim : Dim) (var : darr A) : Prop :=
  forall k m, In (k, m) l -> In dim (labels (k_dims m)) -> usable m /\ forall d n, has (k_dims m) d n -> has (dd var) d n.

(** A function accumulates: element [ix] of the result combines the elements along the removed dimension, in order.
    Inputs must not use the labels [reserved] (by [do_accumulate] for intermediate results). *)
Definition without_dim (d : sizes) (dim : Dim) : list (Dim * Z) := filter (fun e => negb (fst e =? dim)) (pairs d).
Definition accumulates {A} (reserved : list Dim) (f : A -> A -> A) (acc : darr A -> darr A -> res (darr A)) : Prop :=
  forall (out other : darr A) dim n, well_formed out -> well_formed other -> has (dd other) dim n ->
  pairs (dd out) = without_dim (dd other) dim -> (forall l, In l reserved -> ~ In l (labels (dd other))) ->
  exists r, acc out other = Ok r /\ dd r = dd out /\ well_formed r /\
    forall ix, inside (dd out) ix -> dv r ix = fold_left f (map (dv other) (along ix dim n)) (dv out ix).

(** [fill] changes no intermediate result of a reduction of values with [P]. *)
Definition ignores_for {A} (P : A -> Prop) (f : A -> A -> A) (init fill : A) : Prop :=
  exists good : A -> Prop, good init /\ (forall a x, P x -> good a -> good (f a x)) /\ forall a, good a -> f a fill = a.
Definition ignores {A} (f : A -> A -> A) (init fill : A) : Prop := ignores_for (fun _ => True) f init fill.

(** For a reduction over all dimensions: some mask with at least one dimension is set. *)
Definition any_masked (l : list (Z * mask)) (jx : Dim -> Z) : bool :=
  existsb (fun e => negb (zlen (labels (k_dims (snd e))) =? 0) && dv (k_arr (snd e)) jx) l.
Definition all_applicable {A} (l : list (Z * mask)) (var : darr A) : Prop :=
  forall k m, In (k, m) l -> labels (k_dims m) <> [] -> usable m /\ forall d n, has (k_dims m) d n -> has (dd var) d n.

(** The mask [k] of the dictionary has the dimension [d] with extent [n]. *)
Definition dim_at (l : list (Z * mask)) (k : Z) (d : Dim) (n : Z) : Prop := exists m, In (k, m) l /\ has (k_dims m) d n.
