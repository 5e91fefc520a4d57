From Coq Require Import Reals Lra.
From Flocq Require Import Core BinarySingleNaN Relative.
From Verif Require Import Base Float Numeric_Model Lookup_Proofs Linspace_Proofs ToUnit_Model ToUnit_Spec.
Local Open Scope R_scope.

(** ** constants *)
Lemma u53_eq : u53 = / 9007199254740992.
Proof. reflexivity. Qed.
Lemma tiny : 0 < bpow radix2 (-1074) <= / 1606938044258990275541962092341162602522202993782792835301376.
Proof.
  split; [apply bpow_gt_0|]. apply Rle_trans with (bpow radix2 (-200)); [apply bpow_le; lia|]. right. reflexivity.
Qed.
Lemma half_val : val f_half = / 2 /\ is_finite f_half = true.
Proof.
  split; [|reflexivity]. unfold f_half, f_make. pose proof (binary_normalize_correct 53 1024 _ _ mode_NE 1 (-1) false) as C. cbv zeta in C.
  replace (F2R {| Fnum := 1; Fexp := -1 |}) with (bpow radix2 (-1)) in C by (unfold F2R; cbn [Fnum Fexp]; ring).
  assert (E : rnd (bpow radix2 (-1)) = bpow radix2 (-1)) by (apply round_generic; [typeclasses eauto|]; apply generic_format_bpow; vm_compute; discriminate).
  change (round radix2 (SpecFloat.fexp 53 1024) (round_mode mode_NE) (bpow radix2 (-1))) with (rnd (bpow radix2 (-1))) in C. rewrite E in C.
  rewrite Rlt_bool_true in C by (rewrite Rabs_pos_eq by apply bpow_ge_0; apply bpow_lt; reflexivity). rewrite (proj1 C). reflexivity.
Qed.
Lemma e6_val : val f_1e6 = 1000000 /\ is_finite f_1e6 = true.
Proof. destruct (f_of_Z_exact 1000000 ltac:(lia)) as [E F]. split; assumption. Qed.
Lemma inv_lit n : (1 <= n <= 2 ^ 53)%Z -> exists e, Rabs e <= u53 /\ val (fdiv (f_of_Z 1) (f_of_Z n)) = / IZR n * (1 + e) /\ is_finite (fdiv (f_of_Z 1) (f_of_Z n)) = true.
Proof.
  intros Hn. destruct (f_of_Z_exact 1 ltac:(lia)) as [E1 F1]. destruct (f_of_Z_exact n ltac:(lia)) as [E2 F2].
  assert (Hp : 1 <= IZR n) by (apply IZR_le; lia).
  assert (Hb : IZR n <= bpow radix2 53) by (change (bpow radix2 53) with (IZR (2 ^ 53)); apply IZR_le; lia).
  assert (Q : val (f_of_Z 1) / val (f_of_Z n) = / IZR n) by (rewrite E1, E2; field; lra).
  assert (Hi : 0 < / IZR n <= 1). { split; [apply Rinv_0_lt_compat; lra|]. rewrite <- Rinv_1. apply Rinv_le; lra. }
  destruct (fdiv_val (f_of_Z 1) (f_of_Z n) F1) as [E F].
  - rewrite E2. lra.
  - rewrite Q. apply (rnd_lt_max _ 0); [lia| |lia]. rewrite Rabs_pos_eq by lra. change (bpow radix2 0) with 1. lra.
  - rewrite Q in E. destruct (rnd_rel (/ IZR n)) as (e & He & Ee).
    + rewrite Rabs_pos_eq by lra. apply Rle_trans with (bpow radix2 (-53)); [apply bpow_le; lia|]. change (bpow radix2 (-53)) with (/ bpow radix2 53). apply Rinv_le; lra.
    + exists e. split; [exact He|]. split; [rewrite E; exact Ee|exact F].
Qed.

(** ** the cast *)
Lemma clamp_in bits n : (1 <= bits)%Z -> in_range bits n = true -> saturated bits n = n.
Proof. intros Hb Hr. unfold in_range in Hr. apply andb_true_iff in Hr. unfold saturated. pose proof (Z.pow_pos_nonneg 2 (bits - 1) ltac:(lia) ltac:(lia)). lia. Qed.
Lemma clamp_range bits n : (1 <= bits)%Z -> in_range bits (saturated bits n) = true.
Proof. intros Hb. unfold in_range, saturated. pose proof (Z.pow_pos_nonneg 2 (bits - 1) ltac:(lia) ltac:(lia)). lia. Qed.
Lemma trunc_lt x b : (0 < b)%Z -> Rabs x < IZR b -> (Z.abs (Ztrunc x) < b)%Z.
Proof.
  intros Hb Hx. rewrite <- Ztrunc_abs. apply lt_IZR. eapply Rle_lt_trans; [|exact Hx]. rewrite Ztrunc_floor by apply Rabs_pos. apply Zfloor_lb.
Qed.

Lemma safe_cast_ok bits (y : f64) : (1 <= bits)%Z -> is_finite y = true -> safe_cast bits y = Ok (saturated bits (Ztrunc (val y))).
Proof.
  intros Hb Fy. pose proof (Z.pow_pos_nonneg 2 (bits - 1) ltac:(lia) ltac:(lia)) as Hp. unfold safe_cast. replace (is_nan y) with false by (destruct y; try discriminate Fy; reflexivity). rewrite Fy. cbn [andb].
  assert (Hpow : IZR (2 ^ (bits - 1)) = bpow radix2 (bits - 1)) by (rewrite <- (IZR_Zpower radix2) by lia; reflexivity).
  destruct (is_finite_strict y) eqn:Fs.
  - pose proof (Bfrexp_correct 53 1024 _ y Fs) as C. destruct (Bfrexp y) as [z e]. cbn [snd]. destruct C as (Ez & C). specialize (C ltac:(lia)). destruct C as [[Hlo Hhi] _].
    assert (Ea : Rabs (val y) = Rabs (val z) * bpow radix2 e) by (rewrite Ez, Rabs_mult, (Rabs_pos_eq (bpow radix2 e)) by apply bpow_ge_0; reflexivity).
    pose proof (bpow_gt_0 radix2 e) as He0.
    destruct (Z.leb_spec e (bits - 1)) as [He|He].
    + assert (Hlt : Rabs (val y) < IZR (2 ^ (bits - 1))).
      { rewrite Hpow. apply Rlt_le_trans with (bpow radix2 e); [rewrite Ea; nra|]. apply bpow_le. exact He. }
      apply trunc_lt in Hlt; [|exact Hp]. unfold f_to_Z. rewrite Fy, Btrunc_val. assert (R : in_range bits (Ztrunc (val y)) = true) by (unfold in_range; lia).
      rewrite R. cbn [andb]. rewrite clamp_in by assumption. reflexivity.
    + assert (Hge : IZR (2 ^ (bits - 1)) <= Rabs (val y)).
      { rewrite Hpow. apply Rle_trans with (/ 2 * bpow radix2 e); [|rewrite Ea; nra]. replace (/ 2) with (bpow radix2 (-1)) by reflexivity. rewrite <- bpow_plus. apply bpow_le. lia. }
      f_equal. destruct (Bsign y) eqn:S.
      * assert (Hn : val y <= 0). { destruct y as [| | |sy my ey Hy]; try discriminate Fs. cbn in S. subst sy. apply F2R_le_0. cbn. lia. }
        rewrite Rabs_left1 in Hge by exact Hn. assert ((Ztrunc (val y) <= - 2 ^ (bits - 1))%Z); [|unfold saturated; lia].
        rewrite Ztrunc_ceil by exact Hn. apply Zceil_glb. rewrite opp_IZR. lra.
      * assert (Hn : 0 <= val y). { destruct y as [| | |sy my ey Hy]; try discriminate Fs. cbn in S. subst sy. apply F2R_ge_0. cbn. lia. }
        rewrite Rabs_pos_eq in Hge by exact Hn. assert ((2 ^ (bits - 1) <= Ztrunc (val y))%Z); [|unfold saturated; lia].
        rewrite Ztrunc_floor by exact Hn. apply Zfloor_lub. exact Hge.
  - destruct y as [sy| | |]; try discriminate. cbn [Bfrexp snd]. replace (-2 * 1024 - 53 <=? bits - 1)%Z with true by (symmetry; apply Z.leb_le; lia).
    unfold f_to_Z. rewrite Btrunc_val. cbn [is_finite andb B2R]. change 0 with (IZR 0). rewrite Ztrunc_IZR. unfold in_range, saturated.
    replace ((- 2 ^ (bits - 1) <=? 0) && (0 <? 2 ^ (bits - 1)))%Z with true by lia. f_equal. lia.
Qed.
Lemma safe_cast_total bits y : (1 <= bits)%Z -> exists r, safe_cast bits y = Ok r /\ in_range bits r = true.
Proof.
  intros Hb. pose proof (Z.pow_pos_nonneg 2 (bits - 1) ltac:(lia) ltac:(lia)) as Hp. destruct (is_finite y) eqn:Fy.
  - rewrite safe_cast_ok by assumption. eexists. split; [reflexivity|]. apply clamp_range. exact Hb.
  - unfold safe_cast. rewrite Fy. cbn [andb]. destruct (is_nan y); [|destruct (Bsign y)]; eexists; (split; [reflexivity|]); unfold in_range; lia.
Qed.

(** ** adding one half and truncating *)
Lemma zero_val : val (f_of_Z 0) = 0 /\ is_finite (f_of_Z 0) = true.
Proof. destruct (f_of_Z_exact 0 ltac:(lia)). split; assumption. Qed.
Lemma half_away bits (y : f64) : (1 <= bits)%Z -> is_finite y = true -> Rabs (val y) <= bpow radix2 900 ->
  exists r, round_double bits y = Ok (saturated bits r) /\ Z.abs r = Zfloor (rnd (Rabs (val y) + / 2)) /\ (0 <= val y -> (0 <= r)%Z) /\ (val y < 0 -> (r <= 0)%Z).
Proof.
  intros Hb Fy Hy. destruct half_val as [Eh Fh]. destruct zero_val as [E0 F0]. unfold round_double.
  assert (Hbig : Rabs (Rabs (val y) + / 2) <= bpow radix2 901).
  { pose proof (Rabs_pos (val y)). rewrite Rabs_pos_eq by lra. change 901%Z with (900 + 1)%Z. rewrite bpow_double.
    assert (1 <= bpow radix2 900) by (change 1 with (bpow radix2 0); apply bpow_le; lia). lra. }
  assert (Hpos : 0 <= rnd (Rabs (val y) + / 2)).
  { rewrite <- (round_0 radix2 fexp64 ZnearestE). apply round_le; try typeclasses eauto. pose proof (Rabs_pos (val y)). lra. }
  assert (Hr : Rabs (rnd (Rabs (val y) + / 2)) < bpow radix2 1024) by (apply (rnd_lt_max _ 901); [lia|exact Hbig|lia]).
  unfold fltb. rewrite Bltb_correct by assumption. rewrite E0. destruct (Rlt_bool_spec (val y) 0) as [Hn|Hn].
  - assert (En : val y - / 2 = - (Rabs (val y) + / 2)) by (rewrite Rabs_left by exact Hn; ring).
    assert (Rn : rnd (val y - / 2) = - rnd (Rabs (val y) + / 2)) by (rewrite En; apply round_NE_opp).
    destruct (fsub_val y f_half Fy Fh) as [E F]; [rewrite Eh, Rn, Rabs_Ropp; exact Hr|]. rewrite safe_cast_ok by assumption. rewrite E, Eh, Rn, Ztrunc_opp, Ztrunc_floor by exact Hpos.
    assert (0 <= Zfloor (rnd (Rabs (val y) + / 2)))%Z by (apply Zfloor_lub; exact Hpos).
    eexists. split; [reflexivity|]. split; [lia|]. split; [lra|lia].
  - rewrite (Rabs_pos_eq (val y)) in * by exact Hn. destruct (fadd_val y f_half Fy Fh) as [E F]; [rewrite Eh; exact Hr|]. rewrite safe_cast_ok by assumption. rewrite E, Eh, Ztrunc_floor by exact Hpos.
    assert (0 <= Zfloor (rnd (val y + / 2)))%Z by (apply Zfloor_lub; exact Hpos).
    eexists. split; [reflexivity|]. split; [lia|]. split; [lia|lra].
Qed.
Lemma round_int_eq bits p : (Z.abs p <= 2 ^ 53)%Z -> round_int bits p = round_double bits (f_of_Z p).
Proof.
  intros Hp. unfold round_int, round_double, fltb. destruct (f_of_Z_exact p Hp) as [E F]. destruct zero_val as [E0 F0]. rewrite Bltb_correct by assumption. rewrite E, E0.
  destruct (Rlt_bool_spec (IZR p) 0) as [Hn|Hn]; destruct (Z.ltb_spec p 0) as [Hz|Hz]; try reflexivity.
  - apply lt_IZR in Hn. lia.
  - apply le_IZR in Hn. lia.
Qed.

(** an exact integer below 2^52 is not changed *)
Lemma fmt_half n : (0 <= n < 2 ^ 52)%Z -> generic_format radix2 fexp64 (IZR n + / 2).
Proof.
  intros Hn. apply generic_format_FLT. exists (Float radix2 (2 * n + 1) (-1)); cbn [Fnum Fexp]; [|change (Z.abs (2 * n + 1) < 2 ^ 53)%Z; lia|lia].
  unfold F2R. cbn [Fnum Fexp]. rewrite plus_IZR, mult_IZR. change (bpow radix2 (-1)) with (/ 2). field.
Qed.
Lemma round_exact bits (y : f64) p : (1 <= bits)%Z -> is_finite y = true -> val y = IZR p -> (Z.abs p < 2 ^ 52)%Z -> round_double bits y = Ok (saturated bits p).
Proof.
  intros Hb Fy Ey Hp. assert (Hy : Rabs (val y) <= bpow radix2 900).
  { rewrite Ey, <- abs_IZR. apply Rle_trans with (bpow radix2 52); [|apply bpow_le; lia]. change (bpow radix2 52) with (IZR (2 ^ 52)). apply IZR_le. lia. }
  destruct (half_away bits y Hb Fy Hy) as (r & E & Ea & Hpos & Hneg). rewrite E. do 2 f_equal.
  rewrite Ey, <- abs_IZR in Ea. rewrite round_generic in Ea; [|typeclasses eauto|apply fmt_half; lia].
  assert (Hf : Zfloor (IZR (Z.abs p) + / 2) = Z.abs p) by (apply Zfloor_imp; rewrite plus_IZR; lra).
  rewrite Hf in Ea. rewrite Ey in Hpos, Hneg. destruct (Z.le_gt_cases 0 p) as [Hc|Hc].
  - specialize (Hpos ltac:(apply IZR_le; exact Hc)). lia.
  - specialize (Hneg ltac:(apply IZR_lt; exact Hc)). lia.
Qed.

(** ** a double factor *)
Lemma approx_parts v p q : (1 <= p)%Z -> (1 <= q)%Z -> approximates v p q -> 0 < IZR p / IZR q /\ Rabs (v - IZR p / IZR q) <= 4 * u53 * (IZR p / IZR q).
Proof.
  intros Hp Hq A. apply IZR_le in Hp, Hq. split; [apply Rdiv_lt_0_compat; lra|]. unfold approximates in A. replace (bpow radix2 (-51)) with (4 * u53) in A by (rewrite u53_eq; change (bpow radix2 (-51)) with (/ 2251799813685248); lra). exact A.
Qed.
Lemma round_nearest bits x (s : f64) p q : (1 <= bits)%Z -> (1 <= p)%Z -> (1 <= q <= 2 ^ 49)%Z -> (Z.abs (x * p) <= 2 ^ 49)%Z -> is_finite s = true -> approximates (val s) p q ->
  exists n, nearest x p q n /\ convert bits x (SDouble s) = Ok (saturated bits n).
Proof.
  intros Hb Hp Hq Hx Fs Ha. destruct (approx_parts _ _ _ Hp (proj1 Hq) Ha) as [Hc Hs]. set (c := IZR p / IZR q) in *. cbn [convert].
  assert (Hxp : (Z.abs x <= 2 ^ 49)%Z) by (rewrite Z.abs_mul in Hx; nia).
  destruct (f_of_Z_exact x ltac:(lia)) as [Ex Fx].
  assert (Hq1 : 1 <= IZR q) by (apply IZR_le; lia). assert (Hq2 : IZR q <= 562949953421312) by (apply IZR_le; lia).
  set (i := / IZR q). assert (Hi : 0 < i <= 1). { split; [apply Rinv_0_lt_compat; lra|]. unfold i. rewrite <- Rinv_1. apply Rinv_le; lra. }
  assert (Hi2 : / 562949953421312 <= i) by (unfold i; apply Rinv_le; lra).
  assert (Hic : Rabs (IZR x * c) <= 562949953421312 * i).
  { replace (IZR x * c) with (IZR (x * p) * i) by (unfold c, i; rewrite mult_IZR; field; lra). rewrite Rabs_mult, (Rabs_pos_eq i) by lra. apply Rmult_le_compat_r; [lra|]. rewrite <- abs_IZR. apply IZR_le. exact Hx. }
  assert (Hprod : Rabs (IZR x * val s - IZR x * c) <= / 4 * i).
  { replace (IZR x * val s - IZR x * c) with (IZR x * (val s - c)) by ring. rewrite Rabs_mult. rewrite Rabs_mult, (Rabs_pos_eq c) in Hic by lra.
    apply Rle_trans with (Rabs (IZR x) * (4 * u53 * c)); [apply Rmult_le_compat_l; [apply Rabs_pos|exact Hs]|]. rewrite u53_eq. lra. }
  set (w := IZR x * val s) in *. assert (Hw : Rabs w <= 562949953421313 * i) by (apply Rabs_le_inv in Hic, Hprod; apply Rabs_le; lra).
  assert (Hmax : Rabs w <= bpow radix2 60). { change (bpow radix2 60) with 1152921504606846976. lra. }
  destruct (fmul_val (f_of_Z x) s Fx Fs) as [Ey Fy]; [rewrite Ex; apply (rnd_lt_max _ 60); [lia|exact Hmax|lia]|]. rewrite Ex in Ey. fold w in Ey.
  set (y := fmul (f_of_Z x) s) in *. destruct (rnd_abs w) as (e & h & He & Hh & Er). pose proof (mul_bound w e u53 _ Hw He) as Hwe. rewrite Er in Ey.
  destruct tiny as [_ Ht]. assert (Ht' : Rabs h <= / 1000 * i).
  { eapply Rle_trans; [exact Hh|]. lra. }
  apply Rabs_le_inv in Ht'. rewrite u53_eq in Hwe.
  assert (Hyc : Rabs (val y - IZR x * c) <= 5 / 16 * i + / 500 * i) by (rewrite Ey; apply Rabs_le_inv in Hprod; apply Rabs_le; lra).
  assert (Hy : Rabs (val y) <= 562949953421314 * i) by (apply Rabs_le_inv in Hyc, Hic; apply Rabs_le; lra).
  destruct (half_away bits y Hb Fy) as (r & E & Ea & Hpos & Hneg).
  { apply Rle_trans with (bpow radix2 60); [change (bpow radix2 60) with 1152921504606846976; lra|apply bpow_le; lia]. }
  exists r. split; [|exact E].
  set (a := Rabs (val y)) in *. destruct (rnd_abs (a + / 2)) as (e' & h' & He' & Hh' & Er').
  assert (Ha2 : Rabs (a + / 2) <= 562949953421314 * i + / 2) by (unfold a in *; pose proof (Rabs_pos (val y)); rewrite Rabs_pos_eq by lra; lra).
  pose proof (mul_bound _ e' u53 _ Ha2 He') as Hae. rewrite u53_eq in Hae.
  assert (Ht2 : Rabs h' <= / 1000 * i).
  { eapply Rle_trans; [exact Hh'|]. lra. }
  apply Rabs_le_inv in Ht2. set (z := rnd (a + / 2)) in *.
  assert (Hz : a + / 2 - / 8 * i - / 250 * i <= z <= a + / 2 + / 8 * i + / 250 * i) by (rewrite Er'; lra).
  assert (Haxc : Rabs (a - Rabs (IZR x * c)) <= 5 / 16 * i + / 500 * i) by (eapply Rle_trans; [apply Rabs_triang_inv2|exact Hyc]).
  apply Rabs_le_inv in Haxc.
  assert (Ex2 : Rabs (IZR x * c) = IZR (Z.abs (x * p)) * i).
  { replace (IZR x * c) with (IZR (x * p) * i) by (unfold c, i; rewrite mult_IZR; field; lra). rewrite Rabs_mult, (Rabs_pos_eq i) by lra. rewrite <- abs_IZR. reflexivity. }
  rewrite Ex2 in Haxc. pose proof (Zfloor_lb z) as L. pose proof (Zfloor_ub z) as U. rewrite <- Ea in L, U.
  assert (Eiq : i * IZR q = 1) by (unfold i; field; lra).
  assert (Hlo : (2 * (Z.abs r * q) <= 2 * Z.abs (x * p) + q)%Z).
  { assert (IZR (2 * (Z.abs r * q)) < IZR (2 * Z.abs (x * p) + q + 1)).
    { rewrite !plus_IZR, !mult_IZR. assert (Hm : IZR (Z.abs r) * IZR q < (IZR (Z.abs (x * p)) * i + / 2 + / 2 * i) * IZR q) by (apply Rmult_lt_compat_r; lra).
      replace ((IZR (Z.abs (x * p)) * i + / 2 + / 2 * i) * IZR q) with (IZR (Z.abs (x * p)) * (i * IZR q) + / 2 * IZR q + / 2 * (i * IZR q)) in Hm by ring. rewrite Eiq in Hm. lra. }
    apply lt_IZR in H. lia. }
  assert (Hhi : (2 * Z.abs (x * p) + q <= 2 * (Z.abs r * q) + 2 * q)%Z).
  { assert (IZR (2 * Z.abs (x * p) + q - 1) < IZR (2 * (Z.abs r * q) + 2 * q)).
    { rewrite minus_IZR, !plus_IZR, !mult_IZR. assert (Hm : (IZR (Z.abs (x * p)) * i + / 2 - / 2 * i) * IZR q < (IZR (Z.abs r) + 1) * IZR q) by (apply Rmult_lt_compat_r; lra).
      replace ((IZR (Z.abs (x * p)) * i + / 2 - / 2 * i) * IZR q) with (IZR (Z.abs (x * p)) * (i * IZR q) + / 2 * IZR q - / 2 * (i * IZR q)) in Hm by ring. rewrite Eiq in Hm. lra. }
    apply lt_IZR in H. lia. }
  assert (Hsame : (0 <= r -> 0 <= x * p -> nearest x p q r)%Z) by (unfold nearest; nia).
  assert (Hsame2 : (r <= 0 -> x * p <= 0 -> nearest x p q r)%Z) by (unfold nearest; nia).
  destruct (Z.eq_dec x 0) as [X0|X0].
  - subst x. unfold nearest. replace (0 * p)%Z with 0%Z in * by lia. cbn [Z.abs] in *. nia.
  - apply Rabs_le_inv in Hyc. assert (Hbig : 1 * i <= Rabs (IZR x * c)) by (rewrite Ex2; apply Rmult_le_compat_r; [lra|]; apply IZR_le; nia).
    destruct (Z.le_gt_cases 0 x) as [Hc0|Hc0].
    + assert (Hv : 0 <= IZR x * c) by (apply Rmult_le_pos; [apply IZR_le; lia|lra]). rewrite Rabs_pos_eq in Hbig by exact Hv. apply Hsame; [apply Hpos; lra|nia].
    + assert (Hx0 : IZR x <= 0) by (apply IZR_le; lia). assert (Hv : IZR x * c <= 0) by nra. rewrite Rabs_left1 in Hbig by exact Hv. apply Hsame2; [apply Hneg; lra|nia].
Qed.
(** ** the choice of the factor *)
Lemma fround_val b : val (fround b) = IZR (ZnearestA (val b)) /\ is_finite (fround b) = is_finite b.
Proof.
  destruct (Bnearbyint_correct 53 1024 _ mode_NA b) as (E & F & _). split; [|exact F]. unfold fround. rewrite E. apply round_FIX0.
Qed.
Lemma test_ok (b : f64) c : is_finite b = true -> / 1152921504606846976 <= c <= 1099511627776 -> Rabs (val b - c) <= 16 * u53 * c ->
  (fltb (fabs (fsub b (fround b))) (fmul f_1em12 (fabs b)) = true -> Rabs (c - IZR (ZnearestA (val b))) <= 101 / 100000000000000 * c) /\
  (forall n, c = IZR n -> ZnearestA (val b) = n /\ fltb (fabs (fsub b (fround b))) (fmul f_1em12 (fabs b)) = true).
Proof.
  intros Fb Hc Hbc. rewrite u53_eq in Hbc. apply Rabs_le_inv in Hbc. destruct (fround_val b) as [Ei Fi]. rewrite Fb in Fi. set (i := ZnearestA (val b)) in *.
  pose proof (Znearest_half (Zle_bool 0) (val b)) as Hh. fold i in Hh. apply Rabs_le_inv in Hh.
  assert (Hb : 0 <= val b <= 1099511627777) by lra.
  destruct (fsub_val b (fround b) Fb Fi) as [Ed Fd]; [apply (rnd_lt_max _ 0); [lia| |lia]; rewrite Ei; change (bpow radix2 0) with 1; apply Rabs_le; lra|]. rewrite Ei in Ed.
  destruct (inv_lit 1000000000000 ltac:(lia)) as (em & Hem & Em & Fm). fold f_1em12 in Em, Fm. destruct (fabs_val b) as [Eab Fab]. rewrite Fb in Fab. rewrite Rabs_pos_eq in Eab by lra.
  rewrite u53_eq in Hem. apply Rabs_le_inv in Hem.
  assert (Hm : 999999999999 / 1000000000000 * / 1000000000000 <= val f_1em12 <= 1000000000001 / 1000000000000 * / 1000000000000) by (rewrite Em; lra).
  assert (Ht0 : 999999999999 / 1000000000000 * / 1000000000000 * val b <= val f_1em12 * val b <= 1000000000001 / 1000000000000 * / 1000000000000 * val b) by (split; apply Rmult_le_compat_r; lra).
  destruct (fmul_val f_1em12 (fabs b) Fm Fab) as [Et Ft]; [rewrite Eab; apply (rnd_lt_max _ 10); [lia| |lia]; change (bpow radix2 10) with 1024; apply Rabs_le; lra|]. rewrite Eab in Et.
  destruct (rnd_abs (val b - IZR i)) as (e1 & h1 & He1 & Hh1 & E1). destruct (rnd_abs (val f_1em12 * val b)) as (e2 & h2 & He2 & Hh2 & E2).
  rewrite E1 in Ed. rewrite E2 in Et. destruct tiny as [_ Ht]. set (T := bpow radix2 (-1074)) in *.
  set (tt := val f_1em12 * val b) in *. assert (Htt : Rabs tt <= tt) by (rewrite Rabs_pos_eq; lra). pose proof (mul_bound tt e2 u53 tt Htt He2) as M2.
  set (dd := val b - IZR i) in *. pose proof (mul_bound dd e1 u53 (Rabs dd) ltac:(lra) He1) as M1. rewrite u53_eq in M1, M2.
  apply Rabs_le_inv in Hh1, Hh2.
  assert (Hd : 99999 / 100000 * Rabs dd - T <= Rabs (val (fsub b (fround b))) <= 100001 / 100000 * Rabs dd + T).
  { rewrite Ed. replace (dd * (1 + e1) + h1) with (dd - - (dd * e1 + h1)) by ring. set (ep := - (dd * e1 + h1)).
    assert (Hep : Rabs ep <= / 9007199254740992 * Rabs dd + T) by (unfold ep; apply Rabs_le; lra).
    pose proof (Rabs_pos dd). pose proof (Rabs_triang_inv dd ep). pose proof (Rabs_triang dd (- ep)) as Htr. rewrite Rabs_Ropp in Htr. change (dd + - ep) with (dd - ep) in Htr. lra. }
  unfold fltb. rewrite Bltb_correct by (rewrite ?(proj2 (fabs_val _)); assumption). rewrite (proj1 (fabs_val _)), Et. split.
  - destruct (Rlt_bool_spec (Rabs (val (fsub b (fround b)))) (tt * (1 + e2) + h2)) as [L|]; [intros _|discriminate].
    assert (Hdd : Rabs dd <= 1005 / 1000 * / 1000000000000 * c) by lra. apply Rabs_le_inv in Hdd. unfold dd in Hdd. apply Rabs_le. lra.
  - intros n En. assert (Hn : i = n). { apply Znearest_imp. rewrite <- En. apply Rabs_lt. lra. }
    split; [exact Hn|]. apply Rlt_bool_true. assert (Hdd : Rabs dd <= 16 * / 9007199254740992 * c) by (unfold dd; rewrite Hn, <- En; apply Rabs_le; lra). lra.
Qed.

Lemma base_ok (s : f64) p q : (1 <= p <= 2 ^ 39)%Z -> (1 <= q <= 2 ^ 49)%Z -> is_finite s = true -> approximates (val s) p q ->
  exists m, m = (if fltb f_1e6 s then 1000000%Z else 1%Z) /\ is_finite (base_scale s) = true /\
    / 1152921504606846976 <= IZR p / IZR (m * q) <= 1099511627776 /\ Rabs (val (base_scale s) - IZR p / IZR (m * q)) <= 16 * u53 * (IZR p / IZR (m * q)).
Proof.
  intros Hp Hq Fs Ha. destruct (approx_parts _ _ _ (proj1 Hp) (proj1 Hq) Ha) as [Hc Hs]. eexists. split; [reflexivity|].
  assert (Hq1 : 1 <= IZR q) by (apply IZR_le; lia). assert (Hq2 : IZR q <= 562949953421312) by (apply IZR_le; lia).
  assert (Hp1 : 1 <= IZR p) by (apply IZR_le; lia). assert (Hp2 : IZR p <= 549755813888) by (apply IZR_le; lia).
  set (c := IZR p / IZR q) in *.
  assert (Hi : / 562949953421312 <= / IZR q <= 1) by (split; [apply Rinv_le; lra|rewrite <- Rinv_1; apply Rinv_le; lra]).
  assert (Hcr : / 562949953421312 <= c <= 549755813888) by (unfold c, Rdiv; nra).
  unfold base_scale. destruct e6_val as [E6 F6]. assert (Hlt : fltb f_1e6 s = Rlt_bool 1000000 (val s)) by (unfold fltb; rewrite Bltb_correct by assumption; rewrite E6; reflexivity).
  rewrite Hlt. destruct (Rlt_bool_spec 1000000 (val s)) as [L|L].
  - assert (Ec : IZR p / IZR (1000000 * q) = / 1000000 * c) by (rewrite mult_IZR; unfold c; field; lra). rewrite Ec.
    destruct (inv_lit 1000000 ltac:(lia)) as (em & Hem & Em & Fm). fold f_1em6 in Em, Fm. rewrite u53_eq in *. apply Rabs_le_inv in Hem. apply Rabs_le_inv in Hs.
    assert (Hm : (1 - / 9007199254740992) * / 1000000 <= val f_1em6 <= (1 + / 9007199254740992) * / 1000000) by (rewrite Em; lra).
    assert (Hprod : (1 - / 9007199254740992) * / 1000000 * val s <= val s * val f_1em6 <= (1 + / 9007199254740992) * / 1000000 * val s).
    { rewrite (Rmult_comm (val s) (val f_1em6)). split; apply Rmult_le_compat_r; lra. }
    destruct (fmul_val s f_1em6 Fs Fm) as [E F]; [apply (rnd_lt_max _ 60); [lia| |lia]; change (bpow radix2 60) with 1152921504606846976; apply Rabs_le; lra|].
    split; [exact F|]. split; [lra|]. rewrite E. set (w := val s * val f_1em6) in *. destruct (rnd_rel w) as (e & He & Er).
    { apply Rle_trans with (bpow radix2 (-1)); [apply bpow_le; lia|]. change (bpow radix2 (-1)) with (/ 2). rewrite Rabs_pos_eq by lra. lra. }
    rewrite Er. pose proof (mul_bound w e u53 w ltac:(rewrite Rabs_pos_eq; lra) He) as M. rewrite u53_eq in M. apply Rabs_le. lra.
  - rewrite Z.mul_1_l. fold c. split; [exact Fs|]. split; [lra|]. rewrite u53_eq in *. lra.
Qed.

Lemma scale_ok int (s : f64) p q : (1 <= p <= 2 ^ 39)%Z -> (1 <= q <= 2 ^ 49)%Z -> is_finite s = true -> approximates (val s) p q ->
  exists sv, scale_of int s = Ok sv /\
    match sv with
    | SInt k => int = true /\ (k * q)%Z = p
    | SDouble s' => is_finite s' = true /\ approximates (val s') p q /\ (int = true -> forall n, p = (n * q)%Z -> (10 ^ 6 < n)%Z /\ ~ (10 ^ 6 | n)%Z)
    end.
Proof.
  intros Hp Hq Fs Ha. destruct (base_ok s p q Hp Hq Fs Ha) as (m & Hm & Fb & Hc & Hb). unfold scale_of.
  destruct (test_ok _ _ Fb Hc Hb) as [T1 T2]. destruct (fround_val (base_scale s)) as [Ei Fi]. rewrite Fb in Fi.
  rewrite <- Hm. assert (Hmv : (m = 1 \/ m = 1000000)%Z) by (rewrite Hm; destruct (fltb f_1e6 s); lia).
  destruct (fltb (fabs (fsub (base_scale s) (fround (base_scale s)))) (fmul f_1em12 (fabs (base_scale s)))) eqn:T.
  - specialize (T1 eq_refl). set (i := ZnearestA (val (base_scale s))) in *.
    assert (Eq : (i * (m * q) = p)%Z).
    { assert (Hmq : 1 <= IZR (m * q)) by (apply IZR_le; nia). assert (Hp2 : 1 <= IZR p <= 549755813888) by (split; apply IZR_le; lia).
      assert (Hd : Rabs (IZR (p - i * (m * q))) < 1).
      { rewrite minus_IZR, (mult_IZR i). replace (IZR p - IZR i * IZR (m * q)) with ((IZR p / IZR (m * q) - IZR i) * IZR (m * q)) by (field; lra).
        rewrite Rabs_mult, (Rabs_pos_eq (IZR (m * q))) by lra. apply Rle_lt_trans with (101 / 100000000000000 * (IZR p / IZR (m * q)) * IZR (m * q)); [apply Rmult_le_compat_r; lra|].
        replace (101 / 100000000000000 * (IZR p / IZR (m * q)) * IZR (m * q)) with (101 / 100000000000000 * IZR p) by (field; lra). lra. }
      rewrite <- abs_IZR in Hd. apply lt_IZR in Hd. lia. }
    assert (Hi : (1 <= i <= 2 ^ 39)%Z) by (split; nia).
    assert (Hmi : (1 <= m * i <= 2 ^ 39)%Z) by (split; nia).
    destruct int.
    + unfold f_to_Z. rewrite Fi, Btrunc_val, Ei, Ztrunc_IZR. replace (in_range 64 i) with true by (unfold in_range; lia). cbn [andb bind].
      unfold int_val. replace (in_range 64 (m * i)) with true by (unfold in_range; lia). cbn [bind]. eexists. split; [reflexivity|]. split; [reflexivity|nia].
    + eexists. split; [reflexivity|]. destruct (f_of_Z_exact m ltac:(lia)) as [Em Fm].
      assert (Hbig : Rabs (IZR (m * i)) <= bpow radix2 60) by (rewrite <- abs_IZR; change (bpow radix2 60) with (IZR (2 ^ 60)); apply IZR_le; lia).
      destruct (fmul_val (f_of_Z m) (fround (base_scale s)) Fm Fi) as [E F]; [rewrite Em, Ei, <- mult_IZR; apply (rnd_lt_max _ 60); [lia|exact Hbig|lia]|].
      split; [exact F|]. split; [|discriminate]. rewrite E, Em, Ei, <- mult_IZR. rewrite round_generic; [|typeclasses eauto|apply fmt_Z; lia].
      unfold approximates. replace (IZR p / IZR q) with (IZR (m * i)).
      * rewrite Rminus_diag_eq, Rabs_R0 by reflexivity. apply Rmult_le_pos; [apply bpow_ge_0|apply IZR_le; lia].
      * rewrite <- Eq. rewrite !mult_IZR. field. apply not_0_IZR. lia.
  - eexists. split; [reflexivity|]. split; [exact Fs|]. split; [exact Ha|]. intros _ n En.
    assert (Hn1 : (1 <= n)%Z) by nia.
    assert (Hnm : forall n', n = (n' * m)%Z -> False).
    { intros n' En'. destruct (T2 n') as [_ C]; [|discriminate C]. rewrite En, En'. rewrite !mult_IZR. field. split; apply not_0_IZR; lia. }
    destruct Hmv as [M|M]; [exfalso; apply (Hnm n); lia|]. split.
    + destruct (Z.le_gt_cases n 1000000) as [Hle|]; [|lia]. exfalso. destruct (Z.eq_dec n 1000000) as [E|E]; [apply (Hnm 1%Z); lia|].
      destruct (fltb f_1e6 s) eqn:L; [|lia]. unfold fltb in L. destruct e6_val as [E6 F6]. rewrite Bltb_correct in L by assumption. rewrite E6 in L. destruct (Rlt_bool_spec 1000000 (val s)) as [L'|]; [|discriminate].
      destruct (approx_parts _ _ _ (proj1 Hp) (proj1 Hq) Ha) as [_ Hs]. replace (IZR p / IZR q) with (IZR n) in Hs by (rewrite En, mult_IZR; field; apply not_0_IZR; lia).
      assert (Hn : IZR n <= 999999) by (apply IZR_le; lia). rewrite u53_eq in Hs. apply Rabs_le_inv in Hs. lra.
    + intros [n' En']. apply (Hnm n'). lia.
Qed.

(** ** one element *)
Definition integral (dt : int_dtype) : bool := match dt with I32 => false | _ => true end.
Lemma bits_pos dt : (1 <= dtype_bits dt)%Z.
Proof. destruct dt; cbn; lia. Qed.
Lemma to_unit_go dt s days x : is_nan s = false -> (dt = TimePoint -> days = false) ->
  to_unit dt false false s days x = (do sv <- scale_of (integral dt) s; convert (dtype_bits dt) x sv).
Proof. intros Hs Hd. unfold to_unit. rewrite Hs. destruct dt; try reflexivity. rewrite (Hd eq_refl). reflexivity. Qed.
Lemma finite_not_nan (s : f64) : is_finite s = true -> is_nan s = false.
Proof. destruct s; try discriminate; reflexivity. Qed.
Lemma convert_int bits x k : (1 <= bits)%Z -> (Z.abs (x * k) < 2 ^ 52)%Z -> convert bits x (SInt k) = Ok (saturated bits (x * k)).
Proof.
  intros Hb Hx. cbn [convert]. unfold int_val. replace (in_range 64 (x * k)) with true by (unfold in_range; lia). cbn [bind].
  destruct (f_of_Z_exact (x * k) ltac:(lia)) as [E F]. rewrite round_int_eq by lia. apply (round_exact bits (f_of_Z (x * k)) (x * k)); assumption.
Qed.
Theorem to_unit_nearest dt s days x p q : (1 <= p <= 2 ^ 39)%Z -> (1 <= q <= 2 ^ 49)%Z -> (Z.abs (x * p) <= 2 ^ 49)%Z ->
  is_finite s = true -> approximates (val s) p q -> (dt = TimePoint -> days = false) ->
  exists n, nearest x p q n /\ to_unit dt false false s days x = Ok (saturated (dtype_bits dt) n).
Proof.
  intros Hp Hq Hx Fs Ha Hd. rewrite to_unit_go by (auto using finite_not_nan). pose proof (bits_pos dt) as Hb.
  destruct (scale_ok (integral dt) s p q Hp Hq Fs Ha) as (sv & E & Hsv). rewrite E. cbn [bind]. destruct sv as [k|s'].
  - destruct Hsv as [_ Hk]. assert (Ek : (x * p = x * k * q)%Z) by (rewrite <- Hk; ring). exists (x * k)%Z. split; [unfold nearest; rewrite Ek, Z.sub_diag; cbn [Z.abs]; lia|].
    apply convert_int; [exact Hb|]. rewrite Ek, Z.abs_mul in Hx. pose proof (Z.abs_nonneg (x * k)). assert (Z.abs (x * k) * 1 <= Z.abs (x * k) * Z.abs q)%Z by (apply Z.mul_le_mono_nonneg_l; lia). lia.
  - destruct Hsv as (Fs' & Ha' & _). apply (round_nearest _ _ _ _ _ Hb (proj1 Hp) Hq Hx Fs' Ha').
Qed.
Theorem to_unit_finer dt s days x k : dt <> I32 -> (1 <= k <= 2 ^ 39)%Z -> (k <= 10 ^ 6 \/ (10 ^ 6 | k))%Z -> (Z.abs (x * k) < 2 ^ 52)%Z ->
  is_finite s = true -> approximates (val s) k 1 -> (dt = TimePoint -> days = false) ->
  to_unit dt false false s days x = Ok (x * k)%Z.
Proof.
  intros Hdt Hk Hk6 Hx Fs Ha Hd. rewrite to_unit_go by (auto using finite_not_nan). pose proof (bits_pos dt) as Hb.
  destruct (scale_ok (integral dt) s k 1 Hk ltac:(lia) Fs Ha) as (sv & E & Hsv). rewrite E. cbn [bind]. destruct sv as [k'|s'].
  - destruct Hsv as [_ Ek]. assert (k' = k) by lia. subst k'. rewrite convert_int by assumption. f_equal. apply clamp_in; [exact Hb|]. unfold in_range. destruct dt; cbn [dtype_bits]; try lia. congruence.
  - destruct Hsv as (_ & _ & Hn). assert (Hi : integral dt = true) by (destruct dt; try reflexivity; congruence). destruct (Hn Hi k ltac:(lia)) as [N1 N2]. destruct Hk6 as [L|L]; [lia|contradiction].
Qed.
Lemma nearest_exact x k n : (1 <= k)%Z -> nearest (x * k) 1 k n -> n = x.
Proof. unfold nearest. intros Hk Hn. assert (Z.abs ((n - x) * k) * 2 <= k)%Z by (replace ((n - x) * k)%Z with (n * k - x * k * 1)%Z by ring; lia). rewrite Z.abs_mul in H. nia. Qed.
Theorem to_unit_round_trip dt s s' days x k : (1 <= k <= 2 ^ 39)%Z -> (Z.abs (x * k) <= 2 ^ 49)%Z -> in_range (dtype_bits dt) (x * k) = true ->
  is_finite s = true -> approximates (val s) k 1 -> is_finite s' = true -> approximates (val s') 1 k -> (dt = TimePoint -> days = false) ->
  (do y <- to_unit dt false false s days x; to_unit dt false false s' days y) = Ok x.
Proof.
  intros Hk Hx Hr Fs Ha Fs' Ha' Hd. pose proof (bits_pos dt) as Hb. destruct (to_unit_nearest dt s days x k 1 Hk ltac:(lia) Hx Fs Ha Hd) as (n & Hn & E).
  assert (n = x * k)%Z by (unfold nearest in Hn; lia). subst n. rewrite E, clamp_in by assumption. cbn [bind].
  destruct (to_unit_nearest dt s' days (x * k) 1 k ltac:(lia) ltac:(lia) ltac:(lia) Fs' Ha' Hd) as (n & Hn' & E'). rewrite E'.
  apply nearest_exact in Hn'; [|lia]. subst n. f_equal. apply clamp_in; [exact Hb|]. unfold in_range in *. nia.
Qed.

(** ** a double factor never wraps *)
Theorem convert_total bits x s : (1 <= bits)%Z -> exists r, convert bits x (SDouble s) = Ok r /\ in_range bits r = true.
Proof. intros Hb. apply safe_cast_total. exact Hb. Qed.
Theorem i32_total s days x : is_nan s = false -> exists r, to_unit I32 false false s days x = Ok r /\ in_range 32 r = true.
Proof.
  intros Hs. rewrite to_unit_go by (assumption || discriminate). unfold scale_of. cbn [integral].
  destruct (fltb (fabs (fsub (base_scale s) (fround (base_scale s)))) (fmul f_1em12 (fabs (base_scale s)))); cbn [bind]; apply convert_total; cbn; lia.
Qed.
Theorem convert_saturates bits x s : (1 <= bits <= 64)%Z -> (Z.abs x <= 2 ^ 63)%Z -> is_finite s = true -> Rabs (val s) <= bpow radix2 800 ->
  bpow radix2 bits <= Rabs (IZR x * val s) ->
  convert bits x (SDouble s) = Ok (if Rlt_bool (IZR x * val s) 0 then - 2 ^ (bits - 1) else 2 ^ (bits - 1) - 1)%Z.
Proof.
  intros Hb Hx Fs Hs Hbig. cbn [convert]. destruct (f_of_Z_val x ltac:(lia)) as [Ex Fx].
  assert (H1 : 2 <= bpow radix2 bits) by (change 2 with (bpow radix2 1); apply bpow_le; lia).
  assert (Hx1 : 1 <= Rabs (IZR x)).
  { rewrite <- abs_IZR. apply IZR_le. destruct (Z.eq_dec x 0) as [E|E]; [|lia]. subst x. rewrite Rmult_0_l, Rabs_R0 in Hbig. lra. }
  destruct (rnd_rel (IZR x)) as (e & He & Er). { eapply Rle_trans; [|exact Hx1]. change 1 with (bpow radix2 0). apply bpow_le. lia. }
  assert (Hxs : val (f_of_Z x) * val s = (IZR x * val s) * (1 + e)) by (rewrite Ex, Er; ring). rewrite u53_eq in He. apply Rabs_le_inv in He.
  set (w := IZR x * val s) in *. set (v := val (f_of_Z x) * val s) in *.
  assert (Hx63 : Rabs (IZR x) <= bpow radix2 63) by (rewrite <- abs_IZR; change (bpow radix2 63) with (IZR (2 ^ 63)); apply IZR_le; lia).
  assert (Hw : Rabs w <= bpow radix2 863). { unfold w. rewrite Rabs_mult. change 863%Z with (63 + 800)%Z. rewrite bpow_plus. apply Rmult_le_compat; try apply Rabs_pos; assumption. }
  assert (Ev : Rabs v = Rabs w * (1 + e)) by (rewrite Hxs, Rabs_mult, (Rabs_pos_eq (1 + e)) by lra; reflexivity).
  assert (Hhalf : bpow radix2 bits = 2 * bpow radix2 (bits - 1)) by (rewrite <- bpow_double; f_equal; lia).
  assert (Hv : bpow radix2 (bits - 1) <= Rabs v <= bpow radix2 864).
  { rewrite Ev. change 864%Z with (863 + 1)%Z. rewrite bpow_double. pose proof (bpow_gt_0 radix2 (bits - 1)). split; nra. }
  destruct (fmul_val (f_of_Z x) s Fx Fs) as [Ey Fy]; [fold v; apply (rnd_lt_max _ 864); [lia|exact (proj2 Hv)|lia]|]. fold v in Ey.
  set (y := fmul (f_of_Z x) s) in *.
  assert (Fmt : generic_format radix2 fexp64 (bpow radix2 (bits - 1))) by (apply generic_format_bpow; unfold FLT_exp; lia).
  assert (Hy : bpow radix2 (bits - 1) <= Rabs (val y) <= bpow radix2 864).
  { rewrite Ey. split; [apply abs_round_ge_generic; try typeclasses eauto; [exact Fmt|exact (proj1 Hv)]|apply rnd_le; [lia|exact (proj2 Hv)]]. }
  destruct (half_away bits y (proj1 Hb) Fy) as (r & E & Ea & Hpos & Hneg); [eapply Rle_trans; [exact (proj2 Hy)|apply bpow_le; lia]|]. rewrite E. f_equal.
  assert (Hr : (2 ^ (bits - 1) <= Z.abs r)%Z).
  { rewrite Ea. apply Zfloor_lub. replace (IZR (2 ^ (bits - 1))) with (bpow radix2 (bits - 1)) by (rewrite <- (IZR_Zpower radix2) by lia; reflexivity).
    apply round_ge_generic; try typeclasses eauto; [exact Fmt|]. lra. }
  assert (Hp : (0 < 2 ^ (bits - 1))%Z) by (apply Z.pow_pos_nonneg; lia). unfold saturated.
  destruct (Rlt_bool_spec w 0) as [N|N].
  - assert (v < 0) by (rewrite Hxs; nra). assert (Hy0 : val y <= 0) by (rewrite Ey; rewrite <- (round_0 radix2 fexp64 ZnearestE); apply round_le; try typeclasses eauto; lra).
    assert (val y < 0). { destruct Hy0 as [|E0]; [assumption|]. rewrite E0, Rabs_R0 in Hy. pose proof (bpow_gt_0 radix2 (bits - 1)). lra. }
    specialize (Hneg H0). lia.
  - assert (0 <= v) by (rewrite Hxs; nra). assert (Hy0 : 0 <= val y) by (rewrite Ey; rewrite <- (round_0 radix2 fexp64 ZnearestE); apply round_le; try typeclasses eauto; lra).
    specialize (Hpos Hy0). lia.
Qed.
