(** Uncertainty propagation in double precision (C15, C16). *)
From Coq Require Import Reals Lra.
From Flocq Require Import Core BinarySingleNaN.
From Verif Require Import Base Float ValueVar_Model.

(** [double] as number type *)
Definition FN : num f64 := mknum f64 fadd fsub fmul fdiv Bopp fabs (B754_zero false) (f_of_Z 1) Beqb fltb.

(** not negative: NaN or sign bit clear *)
Definition nonneg (x : f64) : Prop := is_nan x = true \/ Bsign x = false.
Lemma fmul_sign x y : is_nan (fmul x y) = true \/ Bsign (fmul x y) = xorb (Bsign x) (Bsign y).
Proof.
  pose proof (Bmult_correct 53 1024 _ _ mode_NE x y) as C. fold (fmul x y) in C. destruct (Rlt_bool _ _).
  - destruct C as (_ & _ & C). destruct (is_nan (fmul x y)); [left; reflexivity|right; apply C; reflexivity].
  - right. destruct (fmul x y); cbn in C; try discriminate; injection C as ->; reflexivity.
Qed.
Lemma fdiv_sign x y : is_nan (fdiv x y) = true \/ Bsign (fdiv x y) = xorb (Bsign x) (Bsign y).
Proof.
  destruct y as [sy|sy| |sy my ey Hy].
  - destruct x; cbn; auto.
  - destruct x; cbn; auto.
  - destruct x; cbn; auto.
  - pose proof (Bdiv_correct 53 1024 _ _ mode_NE x (B754_finite sy my ey Hy)) as C. assert (Hn : B2R (B754_finite (prec := 53) (emax := 1024) sy my ey Hy) <> 0%R).
    { cbn. apply F2R_neq_0. destruct sy; discriminate. }
    specialize (C Hn). fold (fdiv x (B754_finite sy my ey Hy)) in C. destruct (Rlt_bool _ _).
    + destruct C as (_ & _ & C). destruct (is_nan (fdiv x _)); [left; reflexivity|right; apply C; reflexivity].
    + right. destruct (fdiv x _); cbn in C; try discriminate; injection C as ->; reflexivity.
Qed.
Lemma B2R_nonneg (x : f64) : Bsign x = false -> (0 <= B2R x)%R.
Proof. destruct x as [s|s| |s m e He]; cbn; intros Hs; try lra. subst s. apply F2R_ge_0. discriminate. Qed.
Lemma nonneg_add x y : nonneg x -> nonneg y -> nonneg (fadd x y).
Proof.
  intros Hx Hy. destruct (is_finite x) eqn:Fx, (is_finite y) eqn:Fy.
  - assert (Sx : Bsign x = false) by (destruct Hx as [Hx|Hx]; [destruct x; discriminate|exact Hx]). assert (Sy : Bsign y = false) by (destruct Hy as [Hy|Hy]; [destruct y; discriminate|exact Hy]).
    right. pose proof (Bplus_correct 53 1024 _ _ mode_NE x y Fx Fy) as C. fold (fadd x y) in C. destruct (Rlt_bool _ _).
    + destruct C as (_ & _ & ->). rewrite Sx, Sy. pose proof (B2R_nonneg x Sx). pose proof (B2R_nonneg y Sy). destruct (Rcompare_spec (B2R x + B2R y) 0); [lra|reflexivity|reflexivity].
    + destruct C as [C _]. rewrite Sx in C. destruct (fadd x y); cbn in C; try discriminate; injection C as ->; reflexivity.
  - destruct y as [sy|sy| |sy my ey Hy']; try discriminate; [|left; destruct x; reflexivity]. destruct Hy as [Hy|Hy]; [discriminate|]. cbn in Hy. subst sy. destruct x as [sx|sx| |sx mx ex Hx']; try discriminate; right; reflexivity.
  - destruct x as [sx|sx| |sx mx ex Hx']; try discriminate; [|left; destruct y; reflexivity]. destruct Hx as [Hx|Hx]; [discriminate|]. cbn in Hx. subst sx. destruct y as [sy|sy| |sy my ey Hy']; try discriminate; right; reflexivity.
  - destruct x as [sx|sx| |sx mx ex Hx']; try discriminate; destruct y as [sy|sy| |sy my ey Hy']; try discriminate; try (left; reflexivity). destruct Hx as [Hx|Hx]; [discriminate|]. destruct Hy as [Hy|Hy]; [discriminate|]. cbn in Hx, Hy. subst. right. reflexivity.
Qed.
Lemma nan_mul_l x y : is_nan x = true -> is_nan (fmul x y) = true. Proof. destruct x; try discriminate. destruct y; reflexivity. Qed.
Lemma nan_div_l x y : is_nan x = true -> is_nan (fdiv x y) = true. Proof. destruct x; try discriminate. destruct y; reflexivity. Qed.
Lemma nan_div_r x y : is_nan y = true -> is_nan (fdiv x y) = true. Proof. destruct y; try discriminate. destruct x; reflexivity. Qed.
Lemma nan_mul_r x y : is_nan y = true -> is_nan (fmul x y) = true. Proof. destruct y; try discriminate. destruct x; reflexivity. Qed.
(** multiplying twice by the same factor keeps the sign *)
Lemma nonneg_mul2 v b : nonneg v -> nonneg (fmul (fmul v b) b).
Proof.
  intros [Hv|Hv]; [left; apply nan_mul_l; apply nan_mul_l; exact Hv|]. destruct (fmul_sign v b) as [Hn|E1]; [left; apply nan_mul_l; exact Hn|]. destruct (fmul_sign (fmul v b) b) as [Hn|E2]; [left; exact Hn|]. right. rewrite E2, E1, Hv. destruct (Bsign b); reflexivity.
Qed.
Lemma nonneg_mul v w : nonneg v -> nonneg w -> nonneg (fmul v w).
Proof. intros [Hv|Hv]; [left; apply nan_mul_l; exact Hv|]. intros [Hw|Hw]; [left; apply nan_mul_r; exact Hw|]. destruct (fmul_sign v w) as [Hn|E]; [left; exact Hn|right]. rewrite E, Hv, Hw. reflexivity. Qed.
Lemma nonneg_div v w : nonneg v -> nonneg w -> nonneg (fdiv v w).
Proof. intros [Hv|Hv]; [left; apply nan_div_l; exact Hv|]. intros [Hw|Hw]; [left; apply nan_div_r; exact Hw|]. destruct (fdiv_sign v w) as [Hn|E]; [left; exact Hn|right]. rewrite E, Hv, Hw. reflexivity. Qed.
Lemma nonneg_sqr b : nonneg (fmul b b).
Proof. destruct (fmul_sign b b) as [Hn|E]; [left; exact Hn|right]. rewrite E. destruct (Bsign b); reflexivity. Qed.

(** In double precision every operation keeps variances non-negative (or NaN), for all values including infinities and NaN
    and whatever the library functions return; square roots for non-negative values. *)
Theorem C15_nonneg_float (a b : vv f64) (y : f64) : nonneg (variance a) -> nonneg (variance b) ->
  Forall (fun r => nonneg (variance r))
    [vv_neg FN a; vv_abs FN a; vv_add FN a b; vv_sub FN a b; vv_mul FN a b; vv_div FN a b; vv_add_l FN a y; vv_add_r FN y a; vv_sub_l FN a y; vv_sub_r FN y a;
     vv_mul_l FN a y; vv_mul_r FN y a; vv_div_l FN a y; vv_div_r FN y a; vv_reciprocal FN a; vv_min FN a b; vv_max FN a b] /\
  (forall f c, Forall (fun r => nonneg (variance r)) [vv_exp FN f a; vv_log FN f a; vv_log10 FN f c a]) /\
  (forall E pow_ (pred : E -> E) mag is_zero is_pos e, nonneg (variance (vv_pow FN pow_ pred mag is_zero is_pos a e))) /\
  (forall f quarter, nonneg quarter -> nonneg (value a) -> nonneg (variance (vv_sqrt FN f quarter a))).
Proof.
  intros Ha Hb. split; [|split; [|split]].
  - repeat apply Forall_cons; try apply Forall_nil; cbn; try assumption.
    + apply nonneg_add; assumption.
    + apply nonneg_add; assumption.
    + apply nonneg_add; apply nonneg_mul2; assumption.
    + apply nonneg_div; [|apply nonneg_sqr]. apply nonneg_add; [assumption|]. apply nonneg_div; [|apply nonneg_sqr]. apply nonneg_mul; [assumption|apply nonneg_sqr].
    + apply nonneg_mul2; assumption.
    + apply nonneg_mul2; assumption.
    + apply nonneg_div; [assumption|apply nonneg_sqr].
    + apply nonneg_div; [|apply nonneg_sqr]. apply nonneg_div; [|apply nonneg_sqr]. apply nonneg_mul2; assumption.
    + apply nonneg_div; [|apply nonneg_sqr]. apply nonneg_div; [|apply nonneg_sqr]. apply nonneg_mul2; assumption.
    + unfold vv_min. destruct (n_ltb _ _ _); assumption.
    + unfold vv_max. destruct (n_ltb _ _ _); assumption.
  - intros f c. repeat apply Forall_cons; try apply Forall_nil; cbn.
    + apply nonneg_mul; [apply nonneg_sqr|assumption].
    + apply nonneg_div; [assumption|apply nonneg_sqr].
    + apply nonneg_div; [assumption|apply nonneg_sqr].
  - intros E pow_ pred mag is_zero is_pos e. cbn. apply nonneg_mul; [apply nonneg_sqr|assumption].
  - intros f quarter Hq Hv. cbn. apply nonneg_mul; [assumption|]. apply nonneg_div; assumption.
Qed.
Print Assumptions C15_nonneg_float.
Example C15_nonneg_case : Bsign (variance (vv_div FN (mkvv (f_of_Z (-3)) (f_of_Z 4)) (mkvv (f_of_Z (-2)) (f_of_Z 1)))) = false /\ Beqb (variance (vv_div FN (mkvv (f_of_Z (-3)) (f_of_Z 4)) (mkvv (f_of_Z (-2)) (f_of_Z 1)))) (f_make 25 (-4)) = true.
Proof. vm_compute. split; reflexivity. Qed.

(** Missing variances are not the same as zero variances in double precision: the quotient of 2^600 with variance 1 and
    the exact number 2 has variance 1/4, with the number 2 with variance 0 it is NaN. *)
Theorem C15_mixed_float_refuted : exists a y, match e_div FN (With a) (Plain y), e_div FN (With a) (With (mkvv y (B754_zero false))) with
  | With r, With r' => Beqb (variance r) (f_make 1 (-2)) && is_nan (variance r') && Beqb (value r) (value r') | _, _ => false end = true.
Proof. exists (mkvv (f_make 1 600) (f_of_Z 1)), (f_of_Z 2). vm_compute. reflexivity. Qed.
Print Assumptions C15_mixed_float_refuted.
(** The variance of a quotient can be NaN although value and variance are representable: 2^600 / 2^600, both with variance
    2^1000; the exact variance is 2^-199. *)
Theorem C15_overflow_refuted : exists a b : vv f64, is_finite (value a) && is_finite (value b) && is_finite (variance a) && is_finite (variance b) = true /\
  (B2R (variance a) / (B2R (value b))² + B2R (variance b) * (B2R (value a))² / ((B2R (value b))²)²  = bpow radix2 (-199))%R /\
  Beqb (value (vv_div FN a b)) (f_of_Z 1) && is_nan (variance (vv_div FN a b)) = true.
Proof.
  exists (mkvv (f_make 1 600) (f_make 1 1000)), (mkvv (f_make 1 600) (f_make 1 1000)). split; [vm_compute; reflexivity|]. split; [|vm_compute; reflexivity]. cbn [value variance].
  assert (E600 : B2R (f_make 1 600) = bpow radix2 600).
  { pose proof (binary_normalize_correct 53 1024 _ _ mode_NE 1 600 false) as C. cbv zeta in C. replace (F2R {| Fnum := 1; Fexp := 600 |}) with (bpow radix2 600) in C by (unfold F2R; cbn [Fnum Fexp]; ring). rewrite round_generic in C; [|typeclasses eauto|apply generic_format_bpow; vm_compute; discriminate]. rewrite Rlt_bool_true in C; [exact (proj1 C)|]. rewrite Rabs_right by (apply Rle_ge; apply bpow_ge_0). apply bpow_lt. reflexivity. }
  assert (E1000 : B2R (f_make 1 1000) = bpow radix2 1000).
  { pose proof (binary_normalize_correct 53 1024 _ _ mode_NE 1 1000 false) as C. cbv zeta in C. replace (F2R {| Fnum := 1; Fexp := 1000 |}) with (bpow radix2 1000) in C by (unfold F2R; cbn [Fnum Fexp]; ring). rewrite round_generic in C; [|typeclasses eauto|apply generic_format_bpow; vm_compute; discriminate]. rewrite Rlt_bool_true in C; [exact (proj1 C)|]. rewrite Rabs_right by (apply Rle_ge; apply bpow_ge_0). apply bpow_lt. reflexivity. }
  rewrite E600, E1000. pose proof (bpow_gt_0 radix2 600) as H600. assert (Hs : ((bpow radix2 600)² = bpow radix2 1200)%R) by (unfold Rsqr; rewrite <- bpow_plus; reflexivity). rewrite !Hs. pose proof (bpow_gt_0 radix2 1200) as H1200.
  replace (bpow radix2 1000) with (bpow radix2 1200 * bpow radix2 (-200))%R by (rewrite <- bpow_plus; reflexivity). replace (bpow radix2 (-199)) with (2 * bpow radix2 (-200))%R by (change 2%R with (bpow radix2 1); rewrite <- bpow_plus; reflexivity).
  unfold Rsqr. field. lra.
Qed.
Print Assumptions C15_overflow_refuted.

(** ** an operand divided by itself (C16) *)
(** [pow] in double precision *)
Definition pow_float (std_pow : f64 -> f64 -> f64) (a : vv f64) (e : f64) : vv f64 :=
  vv_pow FN std_pow (fun e => fsub e (f_of_Z 1)) fabs (fun e => Beqb e (B754_zero false)) (fun e => fltb (B754_zero false) e) a e.
(** [a / a] is computed as a power with exponent 0. If [std::pow(x, -1)] is the double next to 1/x, then 49/49 is not 1, while
    the quotient of two equal but separate operands is; and 0/0 is 1 with variance NaN instead of NaN. *)
Theorem C16_self_divide_refuted : forall std_pow, (forall x, std_pow x (f_of_Z (-1)) = fdiv (f_of_Z 1) x) ->
  let div same x := op_div FN (pow_float std_pow) std_pow same (With (mkvv x (f_of_Z 1))) (With (mkvv x (f_of_Z 1))) in
  Beqb (e_value (div false (f_of_Z 49))) (f_of_Z 1) = true /\ fltb (e_value (div true (f_of_Z 49))) (f_of_Z 1) = true /\
  is_nan (e_value (div false (f_of_Z 0))) = true /\ Beqb (e_value (div true (f_of_Z 0))) (f_of_Z 1) = true /\
  match div true (f_of_Z 0) with With r => is_nan (variance r) | Plain _ => false end = true.
Proof.
  intros std_pow Hp. cbv zeta. cbn [op_div correlated e_is_with andb e_pow e_value]. unfold pow_float, vv_pow. cbn [value variance FN n_zero].
  replace (fsub (B754_zero false) (f_of_Z 1)) with (f_of_Z (-1)) by (apply B2SF_inj; vm_compute; reflexivity). rewrite !Hp. repeat split; vm_compute; reflexivity.
Qed.
Print Assumptions C16_self_divide_refuted.
