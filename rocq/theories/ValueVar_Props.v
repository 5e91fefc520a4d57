(** Propagation of uncertainties is first-order Gaussian propagation (C15); operands correlated with themselves (C16). *)
From Coq Require Import Reals Lra Psatz.
From Flocq Require Import Core BinarySingleNaN.
From Verif Require Import Base Float ValueVar_Model.
Local Open Scope R_scope.

(** ** specification *)
(** [r] is the first-order propagation through [f] of the value [x] with variance [v] *)
Definition gauss1 (f : R -> R) (x v : R) (r : vv R) : Prop := exists dx, derivable_pt_lim f x dx /\ value r = f x /\ variance r = Rsqr dx * v.
(** of two independent values *)
Definition gauss2 (f : R -> R -> R) (x vx y vy : R) (r : vv R) : Prop :=
  exists dx dy, derivable_pt_lim (fun t => f t y) x dx /\ derivable_pt_lim (fun t => f x t) y dy /\ value r = f x y /\ variance r = Rsqr dx * vx + Rsqr dy * vy.

(** ** the real numbers as number type *)
Definition Reqb (x y : R) : bool := if Req_EM_T x y then true else false.
Definition Rltb (x y : R) : bool := if Rlt_dec x y then true else false.
Definition RN : num R := mknum R Rplus Rminus Rmult Rdiv Ropp Rabs 0 1 Reqb Rltb.

Lemma lim_eq f g x d d' : (forall t, f t = g t) -> d = d' -> derivable_pt_lim f x d -> derivable_pt_lim g x d'.
Proof. intros Hf <- Hd eps He. destruct (Hd eps He) as (del & Hdel). exists del. intros h Hh Hb. rewrite <- !Hf. apply Hdel; assumption. Qed.
Lemma lim_id x : derivable_pt_lim (fun t => t) x 1. Proof. apply derivable_pt_lim_id. Qed.
Lemma lim_const c x : derivable_pt_lim (fun _ => c) x 0. Proof. apply (derivable_pt_lim_const c). Qed.
Lemma lim_inv_r c y : y <> 0 -> derivable_pt_lim (fun t => c / t) y (- c / Rsqr y).
Proof.
  intros Hy. apply (lim_eq (div_fct (fct_cte c) id) _ y ((0 * id y - 1 * c) / Rsqr (id y))); [intros t; reflexivity|unfold id; f_equal; ring|].
  apply (derivable_pt_lim_div (fct_cte c) id y 0 1); [apply derivable_pt_lim_const|apply derivable_pt_lim_id|exact Hy].
Qed.

(** The operators on two independent operands. *)
Theorem C15_binary x vx y vy : let a := mkvv x vx in let b := mkvv y vy in
  gauss2 Rplus x vx y vy (vv_add RN a b) /\ gauss2 Rminus x vx y vy (vv_sub RN a b) /\ gauss2 Rmult x vx y vy (vv_mul RN a b) /\
  (y <> 0 -> gauss2 Rdiv x vx y vy (vv_div RN a b)).
Proof.
  cbv zeta. split; [|split; [|split]].
  - exists 1, 1. split; [apply (lim_eq (plus_fct id (fct_cte y)) _ x (1 + 0)); [reflexivity|ring|apply derivable_pt_lim_plus; [apply derivable_pt_lim_id|apply derivable_pt_lim_const]]|]. split; [apply (lim_eq (plus_fct (fct_cte x) id) _ y (0 + 1)); [reflexivity|ring|apply derivable_pt_lim_plus; [apply derivable_pt_lim_const|apply derivable_pt_lim_id]]|]. cbn. split; [reflexivity|]. unfold Rsqr. ring.
  - exists 1, (-1). split; [apply (lim_eq (minus_fct id (fct_cte y)) _ x (1 - 0)); [reflexivity|ring|apply derivable_pt_lim_minus; [apply derivable_pt_lim_id|apply derivable_pt_lim_const]]|]. split; [apply (lim_eq (minus_fct (fct_cte x) id) _ y (0 - 1)); [reflexivity|ring|apply derivable_pt_lim_minus; [apply derivable_pt_lim_const|apply derivable_pt_lim_id]]|]. cbn. split; [reflexivity|]. unfold Rsqr. ring.
  - exists y, x. split; [apply (lim_eq (mult_real_fct y id) _ x (y * 1)); [intros t; unfold mult_real_fct, id; ring|ring|apply derivable_pt_lim_scal; apply derivable_pt_lim_id]|]. split; [apply (lim_eq (mult_real_fct x id) _ y (x * 1)); [intros t; unfold mult_real_fct, id; ring|ring|apply derivable_pt_lim_scal; apply derivable_pt_lim_id]|]. cbn. split; [reflexivity|]. unfold Rsqr. ring.
  - intros Hy. exists (/ y), (- x / Rsqr y). split; [apply (lim_eq (mult_real_fct (/ y) id) _ x (/ y * 1)); [intros t; unfold mult_real_fct, id; field; exact Hy|ring|apply derivable_pt_lim_scal; apply derivable_pt_lim_id]|]. split; [apply lim_inv_r; exact Hy|]. cbn. split; [reflexivity|]. unfold Rsqr. field. exact Hy.
Qed.
Print Assumptions C15_binary.

(** An operand without variances is treated as an operand with variance zero. *)
Theorem C15_mixed : forall (f : elem (T := R) -> elem -> elem), In f [e_add RN; e_sub RN; e_mul RN; e_div RN] -> forall a y,
  f (With a) (Plain y) = f (With a) (With (mkvv y 0)) /\ f (Plain y) (With a) = f (With (mkvv y 0)) (With a) /\ e_value (f (Plain y) (Plain (value a))) = e_value (f (Plain y) (With a)).
Proof.
  intros f Hf [x v] y. cbn [In] in Hf. unfold e_add, e_sub, e_mul, e_div, lift2, vv_add, vv_sub, vv_mul, vv_div, vv_add_l, vv_sub_l, vv_mul_l, vv_div_l, vv_add_r, vv_sub_r, vv_mul_r, vv_div_r in Hf.
  destruct Hf as [<-|[<-|[<-|[<-|[]]]]]; cbn; (split; [|split; [|reflexivity]]; apply (f_equal With); match goal with |- mkvv ?a _ = mkvv ?a _ => apply (f_equal (mkvv a)) end; unfold Rdiv; ring).
Qed.
Print Assumptions C15_mixed.

(** integer powers *)
Lemma powerRZ_neg_nat x m : powerRZ x (- Z.of_nat m) = / x ^ m.
Proof. destruct m as [|m]; [cbn; field|]. cbn [Z.of_nat Z.opp powerRZ]. rewrite SuccNat2Pos.id_succ. reflexivity. Qed.
Lemma pow_pred x n : (x <> 0 \/ (1 <= n)%Z) -> derivable_pt_lim (fun t => powerRZ t n) x (IZR n * powerRZ x (n - 1)).
Proof.
  intros Hx. destruct (Z_le_gt_dec 0 n) as [Hn|Hn].
  - destruct (Z.eq_dec n 0) as [->|Hn0].
    + apply (lim_eq (fun _ => 1) _ x 0); [reflexivity|ring|apply lim_const].
    + replace n with (Z.of_nat (Z.to_nat n)) by lia. set (m := Z.to_nat n) in *. assert (Hm : (1 <= m)%nat) by lia. clearbody m. replace (Z.of_nat m - 1)%Z with (Z.of_nat (Nat.pred m)) by lia.
      apply (lim_eq (fun t => t ^ m) _ x (INR m * x ^ Nat.pred m)); [intros t; apply pow_powerRZ|rewrite pow_powerRZ, INR_IZR_INZ; reflexivity|apply derivable_pt_lim_pow].
  - destruct Hx as [Hx|]; [|lia]. set (m := Z.to_nat (- n)). assert (Em : n = (- Z.of_nat m)%Z) by lia. assert (Hm : (1 <= m)%nat) by lia. clearbody m. subst n.
    assert (Hp : x ^ m <> 0) by (apply pow_nonzero; exact Hx).
    apply (lim_eq (div_fct (fct_cte 1) (fun t => t ^ m)) _ x ((0 * x ^ m - INR m * x ^ Nat.pred m * 1) / Rsqr (x ^ m))).
    + intros t. unfold div_fct, fct_cte. rewrite powerRZ_neg_nat. unfold Rdiv. ring.
    + replace (- Z.of_nat m - 1)%Z with (- Z.of_nat (S m))%Z by lia. rewrite powerRZ_neg_nat. rewrite opp_IZR, <- INR_IZR_INZ. destruct m as [|k]; [lia|]. cbn [Nat.pred]. unfold Rsqr. cbn [pow]. field. split; [apply pow_nonzero; exact Hx|exact Hx].
    + apply (derivable_pt_lim_div (fct_cte 1) (fun t => t ^ m) x 0 (INR m * x ^ Nat.pred m)); [apply derivable_pt_lim_const|apply derivable_pt_lim_pow|exact Hp].
Qed.

(** [std::pow]: negative bases are allowed for integer exponents *)
Definition std_pow (x e : R) : R := if Reqb (IZR (Int_part e)) e then powerRZ x (Int_part e) else Rpower x e.
Definition pow_int (a : vv R) (n : Z) : vv R := vv_pow RN powerRZ (fun n => (n - 1)%Z) (fun n => Rabs (IZR n)) (fun n => (n =? 0)%Z) (fun n => (0 <? n)%Z) a n.
Definition pow_real (a : vv R) (e : R) : vv R := vv_pow RN std_pow (fun e => e - 1) Rabs (fun e => Reqb e 0) (fun e => Rltb 0 e) a e.
Lemma Reqb_false x y : x <> y -> Reqb x y = false. Proof. unfold Reqb. destruct (Req_EM_T x y); [contradiction|reflexivity]. Qed.
Lemma Reqb_refl x : Reqb x x = true. Proof. unfold Reqb. destruct (Req_EM_T x x); [reflexivity|contradiction]. Qed.
Lemma sqr_abs x : Rabs x * Rabs x = x * x. Proof. unfold Rabs. destruct (Rcase_abs x); ring. Qed.

Lemma Int_part_IZR n : Int_part (IZR n) = n.
Proof. unfold Int_part. rewrite <- (tech_up (IZR n) (n + 1)); [lia|rewrite plus_IZR; lra|rewrite plus_IZR; lra]. Qed.
Lemma std_pow_IZR x n : std_pow x (IZR n) = powerRZ x n.
Proof. unfold std_pow. rewrite Int_part_IZR, Reqb_refl. reflexivity. Qed.
Lemma std_pow_pos x e : 0 < x -> std_pow x e = Rpower x e.
Proof. intros Hx. unfold std_pow, Reqb. destruct (Req_EM_T (IZR (Int_part e)) e) as [E|]; [|reflexivity]. rewrite powerRZ_Rpower by exact Hx. rewrite E. reflexivity. Qed.
Lemma pow_real_int a n : pow_real a (IZR n) = pow_int a n.
Proof.
  unfold pow_real, pow_int, vv_pow. rewrite <- minus_IZR, std_pow_IZR. replace (Reqb (IZR n) 0) with (n =? 0)%Z. replace (Rltb 0 (IZR n)) with (0 <? n)%Z; [reflexivity|].
  - unfold Rltb. destruct (Rlt_dec 0 (IZR n)) as [Hn|Hn]; destruct (Z.ltb_spec 0 n); try reflexivity; [apply lt_IZR in Hn; lia|destruct Hn; apply (IZR_lt 0); assumption].
  - unfold Reqb. destruct (Req_EM_T (IZR n) 0) as [Hn|Hn]; destruct (Z.eqb_spec n 0); try reflexivity; [apply eq_IZR in Hn; contradiction|subst; destruct Hn; reflexivity].
Qed.

(** Functions of one operand; powers with integer exponents, also for negative bases. *)
Theorem C15_unary x v : let a := mkvv x v in
  gauss1 Ropp x v (vv_neg RN a) /\ gauss1 exp x v (vv_exp RN exp a) /\
  (x <> 0 -> gauss1 Rabs x v (vv_abs RN a) /\ gauss1 (fun t => / t) x v (vv_reciprocal RN a)) /\
  (0 < x -> gauss1 sqrt x v (vv_sqrt RN sqrt (/ 4) a) /\ gauss1 ln x v (vv_log RN ln a) /\ gauss1 (fun t => ln t / ln 10) x v (vv_log10 RN (fun t => ln t / ln 10) (ln 10) a)) /\
  (forall n, (x <> 0 \/ (1 <= n)%Z) -> gauss1 (fun t => powerRZ t n) x v (pow_int a n)) /\
  (forall n, (x <> 0 \/ (1 <= n)%Z) -> gauss1 (fun t => powerRZ t n) x v (pow_real a (IZR n))) /\
  (forall e, 0 < x -> gauss1 (fun t => Rpower t e) x v (pow_real a e)).
Proof.
  cbv zeta. assert (Hint : forall n, (x <> 0 \/ (1 <= n)%Z) -> gauss1 (fun t => powerRZ t n) x v (pow_int (mkvv x v) n)).
  { intros n Hn. exists (IZR n * powerRZ x (n - 1)). split; [apply pow_pred; exact Hn|]. unfold pow_int, vv_pow. cbn. split.
    + destruct (Req_EM_T x 0) as [->|Hx].
      * rewrite Reqb_refl. destruct Hn as [Hn|Hn]; [contradiction|]. destruct (Z.eqb_spec n 0); [lia|]. destruct (Z.ltb_spec 0 n); [|lia]. cbn [andb]. replace n with (Z.of_nat (Z.to_nat n)) by lia. rewrite <- pow_powerRZ. rewrite pow_i by lia. reflexivity.
      * rewrite Reqb_false by exact Hx. cbn [andb]. replace n with (n - 1 + 1)%Z at 2 by lia. rewrite powerRZ_add by exact Hx. rewrite powerRZ_1. reflexivity.
    + unfold Rsqr. rewrite <- !Rmult_assoc. f_equal. replace (Rabs (IZR n) * powerRZ x (n - 1) * Rabs (IZR n) * powerRZ x (n - 1)) with ((Rabs (IZR n) * Rabs (IZR n)) * powerRZ x (n - 1) * powerRZ x (n - 1)) by ring. rewrite sqr_abs. ring. }
  split; [|split; [|split; [|split; [|split; [exact Hint|split]]]]].
  - exists (-1). split; [apply (lim_eq (opp_fct id) _ x (-(1))); [reflexivity|ring|apply derivable_pt_lim_opp; apply derivable_pt_lim_id]|]. cbn. split; [reflexivity|]. unfold Rsqr. ring.
  - exists (exp x). split; [apply derivable_pt_lim_exp|]. cbn. split; [reflexivity|]. unfold Rsqr. ring.
  - intros Hx. split.
    + destruct (Rdichotomy x 0 Hx) as [Hl|Hg].
      * exists (-1). split; [apply Rabs_derive_2; exact Hl|]. cbn. split; [reflexivity|]. unfold Rsqr. ring.
      * exists 1. split; [apply Rabs_derive_1; exact Hg|]. cbn. split; [reflexivity|]. unfold Rsqr. ring.
    + exists (- 1 / Rsqr x). split; [apply (lim_eq (fun t => 1 / t) _ x (- 1 / Rsqr x)); [intros t; unfold Rdiv; ring|reflexivity|apply lim_inv_r; exact Hx]|]. cbn. split; [unfold Rdiv; ring|]. unfold Rsqr. field. exact Hx.
  - intros Hx. assert (Hn : x <> 0) by lra. split; [|split].
    + exists (/ (2 * sqrt x)). split; [apply derivable_pt_lim_sqrt; exact Hx|]. cbn. split; [reflexivity|]. pose proof (sqrt_lt_R0 x Hx) as Hs. rewrite Rsqr_inv'. unfold Rsqr. replace (2 * sqrt x * (2 * sqrt x)) with (4 * (sqrt x * sqrt x)) by ring. rewrite sqrt_sqrt by lra. field. exact Hn.
    + exists (/ x). split; [apply derivable_pt_lim_ln; exact Hx|]. cbn. split; [reflexivity|]. unfold Rsqr. field. exact Hn.
    + assert (Hl : 0 < ln 10) by (rewrite <- ln_1; apply ln_increasing; lra). exists (/ ln 10 * / x). split; [apply (lim_eq (mult_real_fct (/ ln 10) ln) _ x (/ ln 10 * / x)); [intros t; unfold mult_real_fct, Rdiv; ring|reflexivity|apply derivable_pt_lim_scal; apply derivable_pt_lim_ln; exact Hx]|]. cbn. split; [reflexivity|]. unfold Rsqr. field. split; lra.
  - intros n Hn. rewrite pow_real_int. apply Hint. exact Hn.
  - intros e Hx. exists (e * Rpower x (e - 1)). split; [apply derivable_pt_lim_power; exact Hx|]. unfold pow_real, vv_pow. cbn. rewrite !std_pow_pos by exact Hx. rewrite Reqb_false by lra. cbn [andb]. split.
    + rewrite <- (Rpower_1 x Hx) at 2. rewrite <- Rpower_plus. f_equal. ring.
    + unfold Rsqr. rewrite <- !Rmult_assoc. f_equal. replace (Rabs e * Rpower x (e - 1) * Rabs e * Rpower x (e - 1)) with ((Rabs e * Rabs e) * Rpower x (e - 1) * Rpower x (e - 1)) by ring. rewrite sqr_abs. ring.
Qed.
Print Assumptions C15_unary.

(** The propagated variance is determined. *)
Lemma gauss1_unique f x v r r' : gauss1 f x v r -> gauss1 f x v r' -> r = r'.
Proof. intros (d & Hd & E1 & E2) (d' & Hd' & E1' & E2'). destruct r, r'. cbn in *. rewrite (uniqueness_limite f x d d' Hd Hd') in E2. congruence. Qed.
Lemma gauss2_unique f x vx y vy r r' : gauss2 f x vx y vy r -> gauss2 f x vx y vy r' -> r = r'.
Proof. intros (d & e & Hd & He & E1 & E2) (d' & e' & Hd' & He' & E1' & E2'). destruct r, r'. cbn in *. rewrite (uniqueness_limite _ x d d' Hd Hd'), (uniqueness_limite _ y e e' He He') in E2. congruence. Qed.
(** Variances stay non-negative, the more general form with [double] is below. *)
Theorem C15_nonneg f g x vx y vy r r' : 0 <= vx -> 0 <= vy -> gauss1 f x vx r -> gauss2 g x vx y vy r' -> 0 <= variance r /\ 0 <= variance r'.
Proof.
  intros Hx Hy (d & _ & _ & ->) (d1 & d2 & _ & _ & _ & ->). pose proof (Rle_0_sqr d). pose proof (Rle_0_sqr d1). pose proof (Rle_0_sqr d2). split; nra.
Qed.
Print Assumptions C15_nonneg.
(** The smaller (larger) operand with its variance. *)
Theorem C15_minmax x vx y vy : x <> y -> let a := mkvv x vx in let b := mkvv y vy in gauss2 Rmin x vx y vy (vv_min RN a b) /\ gauss2 Rmax x vx y vy (vv_max RN a b).
Proof.
  intros Hne. cbv zeta.
  assert (Hloc : forall (f g : R -> R) t d r, 0 < r -> (forall u, Rabs (u - t) < r -> f u = g u) -> derivable_pt_lim f t d -> derivable_pt_lim g t d).
  { intros f g t d r Hr Hfg Hd eps He. destruct (Hd eps He) as (del & Hdel). assert (Hm : 0 < Rmin del r) by (apply Rmin_pos; [apply cond_pos|exact Hr]). exists (mkposreal _ Hm). intros h Hh Hb. cbn in Hb. rewrite <- !Hfg; [apply Hdel; [exact Hh|]| |].
    - eapply Rlt_le_trans; [exact Hb|apply Rmin_l].
    - rewrite Rminus_diag_eq, Rabs_R0 by reflexivity. exact Hr.
    - replace (t + h - t) with h by ring. eapply Rlt_le_trans; [exact Hb|apply Rmin_r]. }
  assert (Hlow : forall u t r, Rabs (u - t) < r -> t - r < u < t + r). { intros u t r Hu. unfold Rabs in Hu. destruct (Rcase_abs (u - t)); lra. }
  unfold vv_min, vv_max. cbn. unfold Rltb. destruct (Rdichotomy x y Hne) as [Hl|Hg].
  - destruct (Rlt_dec x y); [|lra]. destruct (Rlt_dec y x); [lra|]. split.
    + exists 1, 0. split; [apply (Hloc (fun t => t) _ x 1 (y - x)); [lra| |apply lim_id]; intros u Hu; apply Hlow in Hu; rewrite Rmin_left by lra; reflexivity|]. split; [apply (Hloc (fun t => x) _ y 0 (y - x)); [lra| |apply lim_const]; intros u Hu; apply Hlow in Hu; rewrite Rmin_left by lra; reflexivity|]. cbn. rewrite Rmin_left by lra. split; [reflexivity|unfold Rsqr; ring].
    + exists 0, 1. split; [apply (Hloc (fun t => y) _ x 0 (y - x)); [lra| |apply lim_const]; intros u Hu; apply Hlow in Hu; rewrite Rmax_right by lra; reflexivity|]. split; [apply (Hloc (fun t => t) _ y 1 (y - x)); [lra| |apply lim_id]; intros u Hu; apply Hlow in Hu; rewrite Rmax_right by lra; reflexivity|]. cbn. rewrite Rmax_right by lra. split; [reflexivity|unfold Rsqr; ring].
  - destruct (Rlt_dec x y); [lra|]. destruct (Rlt_dec y x); [|lra]. split.
    + exists 0, 1. split; [apply (Hloc (fun t => y) _ x 0 (x - y)); [lra| |apply lim_const]; intros u Hu; apply Hlow in Hu; rewrite Rmin_right by lra; reflexivity|]. split; [apply (Hloc (fun t => t) _ y 1 (x - y)); [lra| |apply lim_id]; intros u Hu; apply Hlow in Hu; rewrite Rmin_right by lra; reflexivity|]. cbn. rewrite Rmin_right by lra. split; [reflexivity|unfold Rsqr; ring].
    + exists 1, 0. split; [apply (Hloc (fun t => t) _ x 1 (x - y)); [lra| |apply lim_id]; intros u Hu; apply Hlow in Hu; rewrite Rmax_left by lra; reflexivity|]. split; [apply (Hloc (fun t => x) _ y 0 (x - y)); [lra| |apply lim_const]; intros u Hu; apply Hlow in Hu; rewrite Rmax_left by lra; reflexivity|]. cbn. rewrite Rmax_left by lra. split; [reflexivity|unfold Rsqr; ring].
Qed.
Print Assumptions C15_minmax.
Example C15_case : vv_mul RN (mkvv 3 4) (mkvv 5 2) = mkvv 15 118 /\ vv_div RN (mkvv 3 4) (mkvv 2 1) = mkvv (3 / 2) (25 / 16) /\ pow_real (mkvv 3 4) 2 = mkvv 9 144.
Proof.
  split; [unfold vv_mul; cbn; apply (f_equal2 mkvv); lra|]. split; [unfold vv_div; cbn; apply (f_equal2 mkvv); lra|]. rewrite (pow_real_int _ 2). unfold pow_int, vv_pow. cbn. rewrite Reqb_false by lra. cbn. rewrite Rabs_right by lra. change (Pos.to_nat 1) with 1%nat. apply (f_equal2 mkvv); lra.
Qed.

(** ** an operand combined with itself (C16) *)
(** The operators of variables: the second operand is the same view of the same buffer. *)
Theorem C16_self x v : let a := With (mkvv x v) in
  (exists r, op_add RN 2 true a a = With r /\ gauss1 (fun t => t + t) x v r) /\
  (exists r, op_sub RN true a a = With r /\ gauss1 (fun t => t - t) x v r) /\
  (exists r, op_mul RN pow_real std_pow 2 true a a = With r /\ gauss1 (fun t => t * t) x v r) /\
  (x <> 0 -> exists r, op_div RN pow_real std_pow true a a = With r /\ gauss1 (fun t => t / t) x v r).
Proof.
  cbv zeta. split; [|split; [|split]].
  - eexists. split; [reflexivity|]. exists 2. split; [apply (lim_eq (mult_real_fct 2 id) _ x (2 * 1)); [intros t; unfold mult_real_fct, id; ring|ring|apply derivable_pt_lim_scal; apply derivable_pt_lim_id]|]. cbn. split; [ring|unfold Rsqr; ring].
  - eexists. split; [reflexivity|]. exists 0. split; [apply (lim_eq (fun _ => 0) _ x 0); [intros t; ring|reflexivity|apply lim_const]|]. cbn. split; [ring|unfold Rsqr; ring].
  - eexists. split; [reflexivity|]. destruct (C15_unary x v) as (_ & _ & _ & _ & _ & Hp & _). destruct (Hp 2%Z) as (d & Hd & E1 & E2); [right; lia|]. exists d. split; [apply (lim_eq (fun t => powerRZ t 2) _ x d); [intros t; change (t ^ 2 = t * t); ring|reflexivity|exact Hd]|]. split; [rewrite E1; change (x ^ 2 = x * x); ring|exact E2].
  - intros Hx. eexists. split; [reflexivity|]. cbn [n_zero RN]. destruct (C15_unary x v) as (_ & _ & _ & _ & _ & Hp & _). destruct (Hp 0%Z) as (d & Hd & E1 & E2); [left; exact Hx|]. pose proof (uniqueness_limite _ _ _ _ Hd (lim_const 1 x)) as ->. exists 0. split.
    + apply (fun Hl => Hl : derivable_pt_lim (fun t => t / t) x 0). intros eps He. assert (Hr : 0 < Rabs x) by (apply Rabs_pos_lt; exact Hx). exists (mkposreal _ Hr). intros h Hh Hb. cbn in Hb. assert (Hxh : x + h <> 0). { intros E. replace h with (- x) in Hb by lra. rewrite Rabs_Ropp in Hb. lra. } replace (((x + h) / (x + h) - x / x) / h - 0) with 0 by (field; repeat split; assumption). rewrite Rabs_R0. exact He.
    + split; [rewrite E1; cbn; field; exact Hx|exact E2].
Qed.
Print Assumptions C16_self.
