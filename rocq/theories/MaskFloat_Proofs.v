(** Fill values of the reductions of doubles. *)
From Coq Require Import Reals Lra.
From Flocq Require Import Core BinarySingleNaN Plus_error.
From Verif Require Import Base Float Mask_Model Mask_Spec.

Lemma add_not_mzero (a x : f64) : a <> B754_zero true -> fadd a x <> B754_zero true.
Proof.
  intros Ha E. destruct (is_finite a) eqn:Fa, (is_finite x) eqn:Fx.
  - pose proof (Bplus_correct _ _ prec_gt_0_53 prec_lt_emax_1024 mode_NE a x Fa Fx) as Hc. cbv zeta in Hc. fold (fadd a x) in Hc. rewrite E in Hc.
    destruct (Rlt_bool _ _); [|destruct Hc as [Hc _]; cbn in Hc; destruct (Bsign a); discriminate].
    destruct Hc as (Hv & _ & Hs). cbn [B2R Bsign] in Hv, Hs.
    destruct (Req_dec (val a + val x) 0) as [Hz|Hnz].
    + rewrite Rcompare_Eq in Hs by exact Hz. symmetry in Hs. apply andb_prop in Hs as [Sa Sx].
      assert (Hneg : forall y : f64, is_finite y = true -> Bsign y = true -> y = B754_zero true \/ (val y < 0)%R).
      { intros [s| | |s m e He] Fy Sy; cbn in *; try discriminate; subst s; [left; reflexivity|right]. apply F2R_lt_0. reflexivity. }
      destruct (Hneg a Fa Sa) as [|Na]; [contradiction|]. destruct (Hneg x Fx Sx) as [->|Nx]; [cbn [B2R] in Hz; lra|lra].
    + symmetry in Hv. revert Hv. change (SpecFloat.fexp 53 1024) with (FLT_exp (-1074) 53).
      apply (round_plus_neq_0 radix2 (FLT_exp (-1074) 53) (round_mode mode_NE)); [apply generic_format_B2R|apply generic_format_B2R|exact Hnz].
  - destruct a as [sa|sa| |sa ma ea Ea], x as [sx|sx| |sx mx ex Ex]; cbn in *; try discriminate.
  - destruct a as [sa|sa| |sa ma ea Ea], x as [sx|sx| |sx mx ex Ex]; cbn in *; try discriminate.
  - destruct a as [sa|sa| |sa ma ea Ea], x as [sx|sx| |sx mx ex Ex]; cbn in *; try discriminate; destruct sa, sx; discriminate.
Qed.
Lemma add_zero (a : f64) : a <> B754_zero true -> fadd a f_zero = a.
Proof. destruct a as [[|]|s| |s m e E]; intros Ha; try reflexivity. contradiction. Qed.

Lemma ignores_sum : ignores (r_op RSum) (r_init RSum) (r_fill RSum).
Proof.
  exists (fun a => a <> B754_zero true). split; [discriminate|]. split; [intros a x _; apply add_not_mzero|]. exact add_zero.
Qed.
Lemma add_not_nan (a x : f64) : is_nan a = false -> is_finite x = true -> is_nan (fadd a x) = false.
Proof.
  intros Na Fx. destruct (is_finite a) eqn:Fa.
  - pose proof (Bplus_correct _ _ prec_gt_0_53 prec_lt_emax_1024 mode_NE a x Fa Fx) as Hc. cbv zeta in Hc. fold (fadd a x) in Hc. destruct (Rlt_bool _ _).
    + destruct Hc as (_ & Hf & _). destruct (fadd a x); try discriminate; reflexivity.
    + destruct Hc as [Hc _]. destruct (fadd a x); try reflexivity. cbn in Hc. destruct (Bsign a); discriminate.
  - destruct a as [sa|sa| |sa ma ea Ea], x as [sx|sx| |sx mx ex Ex]; cbn in *; try discriminate; reflexivity.
Qed.
Lemma ignores_nansum : ignores_for (fun x => is_finite x = true \/ is_nan x = true) (r_op RNansum) (r_init RNansum) (r_fill RNansum).
Proof.
  exists (fun a => a <> B754_zero true /\ is_nan a = false). split; [split; [discriminate|reflexivity]|]. cbn [r_op r_init r_fill]. unfold nan_add_equals. split.
  - intros a x Hx [Ha Na]. rewrite Na. destruct (is_nan x) eqn:Nx; [auto|]. destruct Hx as [Fx|]; [|discriminate]. split; [apply add_not_mzero; exact Ha|apply add_not_nan; assumption].
  - intros a [Ha Na]. rewrite Na. cbn [is_nan f_zero]. apply add_zero. exact Ha.
Qed.

Lemma f_max_val : val f_max = (IZR (2 ^ 53 - 1) * bpow radix2 971)%R /\ is_finite f_max = true.
Proof. vm_compute f_max. split; [|reflexivity]. cbn [B2R cond_Zopp]. unfold F2R. cbn [Fnum Fexp]. reflexivity. Qed.
Lemma val_bound (a : f64) : (Rabs (val a) <= val f_max)%R.
Proof.
  rewrite (proj1 f_max_val). pose proof (abs_B2R_le_emax_minus_prec 53 1024 prec_gt_0_53 a) as Hb.
  replace (IZR (2 ^ 53 - 1) * bpow radix2 971)%R with (bpow radix2 1024 - bpow radix2 (1024 - 53))%R; [exact Hb|].
  replace 1024%Z with (53 + 971)%Z at 1 by reflexivity. rewrite bpow_plus. replace (1024 - 53)%Z with 971%Z by reflexivity.
  rewrite minus_IZR. change (2 ^ 53)%Z with (Zpower radix2 53). rewrite IZR_Zpower by lia. ring.
Qed.
Lemma lowest_val : val f_lowest = (- val f_max)%R /\ is_finite f_lowest = true.
Proof. unfold f_lowest. rewrite B2R_Bopp, is_finite_Bopp. split; [reflexivity|apply f_max_val]. Qed.

Lemma not_below (a : f64) : a <> B754_infinity true -> fltb a f_lowest = false.
Proof.
  intros Ha. destruct (is_finite a) eqn:Fa.
  - unfold fltb. rewrite Bltb_correct; [|exact Fa|apply lowest_val]. apply Rlt_bool_false. rewrite (proj1 lowest_val). pose proof (val_bound a) as Hb. apply Rabs_le_inv in Hb. apply Hb.
  - destruct a as [| [|] | |]; try discriminate; try contradiction; reflexivity.
Qed.
Lemma not_above (a : f64) : a <> B754_infinity false -> fltb f_max a = false.
Proof.
  intros Ha. destruct (is_finite a) eqn:Fa.
  - unfold fltb. rewrite Bltb_correct; [|apply f_max_val|exact Fa]. apply Rlt_bool_false. pose proof (val_bound a) as Hb. apply Rabs_le_inv in Hb. apply Hb.
  - destruct a as [| [|] | |]; try discriminate; try contradiction; reflexivity.
Qed.
Lemma lt_minf (a : f64) : fltb a (B754_infinity true) = false.
Proof. destruct a as [| [|] | |]; reflexivity. Qed.
Lemma gt_pinf (a : f64) : fltb (B754_infinity false) a = false.
Proof. destruct a as [| [|] | |]; reflexivity. Qed.
Lemma max_not_minf (a x : f64) : a <> B754_infinity true -> std_max a x <> B754_infinity true.
Proof. intros Ha. unfold std_max. destruct (fltb a x) eqn:E; [|exact Ha]. intros ->. rewrite lt_minf in E. discriminate. Qed.
Lemma min_not_pinf (a x : f64) : a <> B754_infinity false -> std_min a x <> B754_infinity false.
Proof. intros Ha. unfold std_min. destruct (fltb x a) eqn:E; [|exact Ha]. intros ->. rewrite gt_pinf in E. discriminate. Qed.
Lemma nan_not_inf (x : f64) s : is_nan x = true -> x <> B754_infinity s.
Proof. destruct x; discriminate. Qed.
Lemma lowest_not_minf : f_lowest <> B754_infinity true. Proof. intros E. pose proof (proj2 lowest_val) as F. rewrite E in F. discriminate. Qed.
Lemma max_not_pinf : f_max <> B754_infinity false. Proof. intros E. pose proof (proj2 f_max_val) as F. rewrite E in F. discriminate. Qed.
Lemma lowest_nan : is_nan f_lowest = false. Proof. pose proof (proj2 lowest_val). destruct f_lowest; try reflexivity; discriminate. Qed.
Lemma max_nan : is_nan f_max = false. Proof. pose proof (proj2 f_max_val). destruct f_max; try reflexivity; discriminate. Qed.
Lemma std_max_nan (a x : f64) : is_nan a = false -> is_nan x = false -> is_nan (std_max a x) = false.
Proof. unfold std_max. destruct (fltb a x); auto. Qed.
Lemma std_min_nan (a x : f64) : is_nan a = false -> is_nan x = false -> is_nan (std_min a x) = false.
Proof. unfold std_min. destruct (fltb x a); auto. Qed.

Lemma ignores_max : ignores (r_op RMax) (r_init RMax) (r_fill RMax).
Proof.
  exists (fun a => a <> B754_infinity true). cbn [r_op r_init r_fill]. split; [exact lowest_not_minf|]. unfold max_equals. split.
  - intros a x _ Ha. destruct (is_nan x) eqn:Nx; [apply nan_not_inf; exact Nx|]. destruct (is_nan a); [exact Ha|apply max_not_minf; exact Ha].
  - intros a Ha. rewrite lowest_nan. destruct (is_nan a); [reflexivity|]. unfold std_max. rewrite not_below by exact Ha. reflexivity.
Qed.
Lemma ignores_min : ignores (r_op RMin) (r_init RMin) (r_fill RMin).
Proof.
  exists (fun a => a <> B754_infinity false). cbn [r_op r_init r_fill]. split; [exact max_not_pinf|]. unfold min_equals. split.
  - intros a x _ Ha. destruct (is_nan x) eqn:Nx; [apply nan_not_inf; exact Nx|]. destruct (is_nan a); [exact Ha|apply min_not_pinf; exact Ha].
  - intros a Ha. rewrite max_nan. destruct (is_nan a); [reflexivity|]. unfold std_min. rewrite not_above by exact Ha. reflexivity.
Qed.
Lemma ignores_nanmax : ignores (r_op RNanmax) (r_init RNanmax) (r_fill RNanmax).
Proof.
  exists (fun a => a <> B754_infinity true /\ is_nan a = false). cbn [r_op r_init r_fill]. split; [split; [exact lowest_not_minf|exact lowest_nan]|]. unfold nanmax_equals. split.
  - intros a x _ [Ha Na]. rewrite Na. destruct (is_nan x) eqn:Nx; [auto|]. split; [apply max_not_minf; exact Ha|apply std_max_nan; assumption].
  - intros a [Ha Na]. rewrite Na, lowest_nan. unfold std_max. rewrite not_below by exact Ha. reflexivity.
Qed.
Lemma ignores_nanmin : ignores (r_op RNanmin) (r_init RNanmin) (r_fill RNanmin).
Proof.
  exists (fun a => a <> B754_infinity false /\ is_nan a = false). cbn [r_op r_init r_fill]. split; [split; [exact max_not_pinf|exact max_nan]|]. unfold nanmin_equals. split.
  - intros a x _ [Ha Na]. rewrite Na. destruct (is_nan x) eqn:Nx; [auto|]. split; [apply min_not_pinf; exact Ha|apply std_min_nan; assumption].
  - intros a [Ha Na]. rewrite Na, max_nan. unfold std_min. rewrite not_above by exact Ha. reflexivity.
Qed.
