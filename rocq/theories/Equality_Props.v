(** Properties of comparisons (C46). *)
From Flocq Require Import BinarySingleNaN.
From Verif Require Import Base Map_Model Dims_Model Dims_Spec Index_Model View_Model View_Spec Float SizedDict_Model SizedDict_Spec
  Equality_Model Equality_Spec Equality_Proofs.

(** C46. The comparison of variables within the supported rank always gives an answer: whether they have the same
    content. Strides, offset and buffer do not matter, except that [equals_nan] accepts the same view of the same buffer
    without looking at it. *)
Theorem C46_variables : forall st nan a b, comparable a -> comparable b ->
  exists r, compare st nan a b = Ok r /\ (r = true <-> (nan = true /\ same_view a b) \/ same_content nan st a b).
Proof. exact compare_ok. Qed.
Print Assumptions C46_variables.

(** C46. Equality is symmetric and transitive; [equals_nan] is reflexive, [==] exactly for variables without NaN. *)
Theorem C46_equivalence : forall st nan a b c, comparable a -> comparable b -> comparable c ->
  compare st nan a b = compare st nan b a /\
  (compare st nan a b = Ok true -> compare st nan b c = Ok true -> compare st nan a c = Ok true) /\
  compare st true a a = Ok true /\ (compare st false a a = Ok true <-> ~ has_nan st a).
Proof.
  intros st nan a b c Ha Hb Hc.
  assert (Heq : forall n x y, comparable x -> comparable y -> compare st n x y = Ok true <-> var_same n st x y).
  { intros n x y Hx Hy. destruct (compare_ok st n x y Hx Hy) as (r & -> & Hr). rewrite <- Hr. split; congruence. }
  split; [|split; [|split]].
  - destruct (compare_ok st nan a b Ha Hb) as (r & -> & Hr). destruct (compare_ok st nan b a Hb Ha) as (r' & -> & Hr').
    f_equal. apply Bool.eq_iff_eq_true. rewrite Hr, Hr'. split; apply var_same_sym.
  - rewrite !Heq by assumption. apply var_same_trans; [apply Ha|apply Hb|apply Hc].
  - apply Heq; try assumption. apply var_same_refl_nan.
  - rewrite Heq by assumption. apply var_same_refl.
Qed.
Print Assumptions C46_equivalence.

(** C46. Only the content matters for [==]: replacing an operand by any other variable with identical unit, data type,
    shape and elements (a copy, or another layout) gives the same answer. *)
Theorem C46_layout : forall st a a' b, comparable a -> comparable a' -> comparable b ->
  unit_of st a = unit_of st a' -> dtype_of st a = dtype_of st a' -> ishape a = ishape a' ->
  (has_variances st a <-> has_variances st a') ->
  (forall ix, valid_at (ishape a) ix -> value st a ix = value st a' ix /\ variance st a ix = variance st a' ix) ->
  compare st false a b = compare st false a' b.
Proof.
  intros st a a' b Ha Ha' Hb Eu Et Es Ev Hx.
  destruct (compare_ok st false a b Ha Hb) as (r & -> & Hr). destruct (compare_ok st false a' b Ha' Hb) as (r' & -> & Hr').
  f_equal. apply Bool.eq_iff_eq_true. rewrite Hr, Hr'. unfold var_same, same_content. rewrite <- Eu, <- Et, <- Es, <- Ev.
  split; (intros [[? _]|(? & ? & ? & ? & Hy & Hz)]; [discriminate|]; right; repeat (split; [assumption|]); split; intros ix;
    [intros Hix|intros x y Hix]); destruct (Hx ix Hix) as [E1 E2].
  - rewrite <- E1. auto.
  - rewrite <- E2. apply Hz. exact Hix.
  - rewrite E1. auto.
  - rewrite E2. apply Hz. exact Hix.
Qed.
Print Assumptions C46_layout.

(** C46. Dictionaries and data arrays: the same keys in any order, with the same values and alignment. *)
Theorem C46_dicts : forall st nan a b, dict_comparable a -> dict_comparable b ->
  exists r, sd_compare st nan a b = Ok r /\ (r = true <-> dict_same nan st a b).
Proof. exact sd_compare_ok. Qed.
Print Assumptions C46_dicts.

Theorem C46_data_arrays : forall st nan a b c, da_comparable a -> da_comparable b -> da_comparable c ->
  (exists r, da_compare st nan a b = Ok r /\ (r = true <-> da_same nan st a b)) /\
  da_compare st nan a b = da_compare st nan b a /\
  (da_compare st nan a b = Ok true -> da_compare st nan b c = Ok true -> da_compare st nan a c = Ok true) /\
  da_compare st true a a = Ok true.
Proof.
  intros st nan a b c Ha Hb Hc.
  assert (Heq : forall n x y, da_comparable x -> da_comparable y -> da_compare st n x y = Ok true <-> da_same n st x y).
  { intros n x y Hx Hy. destruct (da_compare_ok st n x y Hx Hy) as (r & -> & Hr). rewrite <- Hr. split; congruence. }
  split; [exact (da_compare_ok st nan a b Ha Hb)|]. split; [|split].
  - destruct (da_compare_ok st nan a b Ha Hb) as (r & -> & Hr). destruct (da_compare_ok st nan b a Hb Ha) as (r' & -> & Hr').
    f_equal. apply Bool.eq_iff_eq_true. rewrite Hr, Hr'. unfold da_same.
    split; intros (? & ? & ? & ?); auto using dict_same_sym, var_same_sym.
  - rewrite !Heq by assumption. destruct Ha as (Da & Ca & Ma & Aa), Hb as (Db & Cb & Mb & Ab), Hc as (Dc & Cc & Mc & Ac).
    intros (c1 & m1 & a1 & d1) (c2 & m2 & a2 & d2). unfold da_same.
    split; [exact (dict_same_trans _ _ _ _ _ Ca Cb Cc c1 c2)|].
    split; [exact (dict_same_trans _ _ _ _ _ Ma Mb Mc m1 m2)|].
    split; [exact (dict_same_trans _ _ _ _ _ Aa Ab Ac a1 a2)|].
    exact (var_same_trans _ _ _ _ _ (proj1 Da) (proj1 Db) (proj1 Dc) d1 d2).
  - apply Heq; try assumption. destruct Ha as (Da & Ca & Ma & Aa). unfold da_same.
    split; [apply dict_same_refl; [assumption|intros; apply var_same_refl_nan]|].
    split; [apply dict_same_refl; [assumption|intros; apply var_same_refl_nan]|].
    split; [apply dict_same_refl; [assumption|intros; apply var_same_refl_nan]|]. apply var_same_refl_nan.
Qed.
Print Assumptions C46_data_arrays.

(** ** Concrete cases *)
Definition cX : Dim := 5.
Definition cY : Dim := 6.
Definition d_xy : sizes := mkmap [cX; cY] [2; 2].
(** Two buffers with the same numbers in different order, with variances, one in the order y, x. *)
Definition st_case : store := fun o =>
  if o =? 1 then mkbuf 7 0 (fun p => EFlt (f_of_Z p)) (Some (fun p => EFlt (f_of_Z (p + 4))))
  else if o =? 2 then mkbuf 7 0 (fun p => EFlt (f_of_Z (match p with 1 => 2 | 2 => 1 | _ => p end)))
                               (Some (fun p => EFlt (f_of_Z (match p with 1 => 6 | 2 => 5 | _ => p + 4 end))))
  else if o =? 3 then mkbuf 7 0 (fun p => if p =? 2 then EFlt B754_nan else EFlt (f_of_Z p)) None
  else mkbuf 7 9 (fun _ => EVec [f_of_Z 1; B754_nan]) None.
Definition c_row (o : Z) : item := mkitem o (mkvar d_xy [2; 1] 0 false 4) true false.
Definition c_col (o : Z) : item := mkitem o (mkvar d_xy [1; 2] 0 true 4) true false.

Lemma c_row_ok o : comparable (c_row o).
Proof. split; [repeat constructor; cbn; intuition (discriminate || lia)|cbn; unfold NDIM_OP_MAX; lia]. Qed.
Lemma c_col_ok o : comparable (c_col o).
Proof. split; [repeat constructor; cbn; intuition (discriminate || lia)|cbn; unfold NDIM_OP_MAX; lia]. Qed.

Example C46_case : compare st_case false (c_row 1) (c_col 2) = Ok true /\ compare st_case false (c_row 1) (c_row 2) = Ok false /\
  compare st_case false (c_row 1) (c_col 1) = Ok false.
Proof. vm_compute. auto. Qed.
Example C46_case_nan : compare st_case false (c_row 3) (c_row 3) = Ok false /\ compare st_case true (c_row 3) (c_row 3) = Ok true.
Proof. vm_compute. auto. Qed.
Example C46_case_layout : comparable (c_row 1) /\ comparable (c_col 2) /\ ishape (c_row 1) = ishape (c_col 2) /\
  forall ix, valid_at (ishape (c_row 1)) ix -> value st_case (c_row 1) ix = value st_case (c_col 2) ix /\
    variance st_case (c_row 1) ix = variance st_case (c_col 2) ix.
Proof.
  split; [apply c_row_ok|]. split; [apply c_col_ok|]. split; [reflexivity|]. intros ix Hix.
  assert (Hx : 0 <= ix cX < 2) by (apply Hix; left; reflexivity).
  assert (Hy : 0 <= ix cY < 2) by (apply Hix; right; left; reflexivity).
  unfold value, variance, c_row, c_col, vaddr. cbn [i_obj i_var v_offset v_strides v_dims d_xy labels m_keys map dot].
  change (st_case 1) with (mkbuf 7 0 (fun p => EFlt (f_of_Z p)) (Some (fun p => EFlt (f_of_Z (p + 4))))).
  change (st_case 2) with (mkbuf 7 0 (fun p => EFlt (f_of_Z (match p with 1 => 2 | 2 => 1 | _ => p end)))
                               (Some (fun p => EFlt (f_of_Z (match p with 1 => 6 | 2 => 5 | _ => p + 4 end))))).
  cbn [b_val b_var]. fold cX cY.
  assert (Ex : ix cX = 0 \/ ix cX = 1) by lia. assert (Ey : ix cY = 0 \/ ix cY = 1) by lia.
  destruct Ex as [->| ->], Ey as [->| ->]; split; reflexivity.
Qed.
Definition da_case (o : Z) (k1 k2 : Z) (i1 i2 : item) : darray :=
  mkda (c_row o) (mksd d_xy (mkmap [k1; k2] [i1; i2]) false) (mksd d_xy mempty false) (mksd d_xy mempty false) false.
Example C46_case_dicts : let a := da_case 1 10 11 (c_row 1) (c_row 3) in let b := da_case 1 11 10 (c_row 3) (c_col 2) in
  da_comparable a /\ da_comparable b /\ da_compare st_case true a b = Ok true /\ da_compare st_case false a b = Ok false.
Proof.
  assert (Hd : forall o k1 k2 i1 i2, comparable i1 -> comparable i2 -> k1 <> k2 -> da_comparable (da_case o k1 k2 i1 i2)).
  { intros o k1 k2 i1 i2 H1 H2 Hk. split; [apply c_row_ok|]. split; [|split].
    - split; [repeat constructor; cbn; intuition|]. split; [reflexivity|].
      intros k i [E|[E|[]]]; injection E as <- <-; assumption.
    - split; [constructor|]. split; [reflexivity|]. intros k i [].
    - split; [constructor|]. split; [reflexivity|]. intros k i []. }
  split; [apply Hd; [apply c_row_ok|apply c_row_ok|discriminate]|]. split; [apply Hd; [apply c_row_ok|apply c_col_ok|discriminate]|].
  vm_compute. auto.
Qed.

(** C46, "consistent with contents" is false for [equals_nan] of vectors: NaN inside a vector is not treated as equal to
    NaN, so a variable is equal to itself, but a copy with identical content is not. *)
Theorem C46_vectors_refuted : exists st a b, comparable a /\ comparable b /\
  (forall ix, value st a ix = value st b ix) /\ unit_of st a = unit_of st b /\ dtype_of st a = dtype_of st b /\
  ishape a = ishape b /\ ~ has_variances st a /\ ~ has_variances st b /\
  compare st true a a = Ok true /\ compare st true b b = Ok true /\ compare st true a b = Ok false.
Proof.
  exists st_case, (c_row 4), (c_row 5). split; [apply c_row_ok|]. split; [apply c_row_ok|].
  repeat (split; [reflexivity|]). split; [intros Hc; apply Hc; reflexivity|]. split; [intros Hc; apply Hc; reflexivity|].
  vm_compute. auto.
Qed.
Print Assumptions C46_vectors_refuted.
