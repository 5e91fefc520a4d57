(** Vocabulary for the combination of coords and attributes. *)
From Verif Require Import Base Map_Model Dims_Model Dims_Spec View_Model View_Spec SizedDict_Model SizedDict_Spec Equality_Model Equality_Spec.

(** Some coord is aligned in both operands with different values. *)
Definition mismatch (st : store) (a b : sdict) : Prop :=
  exists k i j, In (k, i) (sd_list a) /\ In (k, j) (sd_list b) /\ i_aligned i = true /\ i_aligned j = true /\
    ~ var_same true st i j.

(** The coord [k] of the result: the aligned one of either operand (of the first if both are); otherwise it must be an
    unaligned coord of both operands with the same values. *)
Definition united (st : store) (a b : list (Z * item)) (k : Z) (it : item) : Prop :=
  (In (k, it) a /\ i_aligned it = true) \/
  (In (k, it) b /\ i_aligned it = true /\ forall i, In (k, i) a -> i_aligned i = false) \/
  (In (k, it) b /\ i_aligned it = false /\ exists i, In (k, i) a /\ i_aligned i = false /\ var_same true st i it).

(** The attributes of the first operand that the second has with the same values. *)
Definition common (st : store) (a b : list (Z * item)) (k : Z) (it : item) : Prop :=
  In (k, it) a /\ exists j, In (k, j) b /\ var_same true st j it.

(** Every aligned coord of [b] exists in [a], and is equal if aligned there, too. *)
Definition superset (st : store) (a b : sdict) : Prop :=
  forall k j, In (k, j) (sd_list b) -> i_aligned j = true ->
  exists i, In (k, i) (sd_list a) /\ (i_aligned i = true -> var_same false st i j).

(** The shape of the result: the dimensions of both operands. *)
Definition merged (a b : darray) (p : list (Dim * Z)) : Prop := forall k n, In (k, n) p <-> In (k, n) (da_shape a) \/ In (k, n) (da_shape b).

(** When an operation is possible: no mismatch, no conflict of shapes, and all coords and attributes of the result fit it. *)
Definition acceptable (st : store) (a b : darray) : Prop :=
  ~ mismatch st (da_coords a) (da_coords b) /\ ~ conflict (i_dims (da_data a)) (i_dims (da_data b)) /\
  forall p k it, merged a b p ->
    united st (sd_list (da_coords a)) (sd_list (da_coords b)) k it \/ common st (sd_list (da_attrs a)) (sd_list (da_attrs b)) k it ->
    fits p (ishape it).
