(** IEEE binary64 numbers ([double]) as formalised by the Flocq library, and facts about them. *)
From Coq Require Import Reals Lra.
From Flocq Require Import Core BinarySingleNaN Relative.
From Verif Require Import Base.

Lemma prec_gt_0_53 : Prec_gt_0 53. Proof. reflexivity. Qed.
Lemma prec_lt_emax_1024 : Prec_lt_emax 53 1024. Proof. reflexivity. Qed.
#[global] Existing Instance prec_gt_0_53.
#[global] Existing Instance prec_lt_emax_1024.

Definition f64 := binary_float 53 1024.
Definition fadd : f64 -> f64 -> f64 := Bplus mode_NE.
Definition fsub : f64 -> f64 -> f64 := Bminus mode_NE.
Definition fmul : f64 -> f64 -> f64 := Bmult mode_NE.
Definition fdiv : f64 -> f64 -> f64 := Bdiv mode_NE.
Definition fabs : f64 -> f64 := Babs.
Definition fltb : f64 -> f64 -> bool := Bltb.
Definition fleb : f64 -> f64 -> bool := Bleb.
Definition ffloor : f64 -> f64 := Bnearbyint mode_DN.
(** [static_cast<double>(z)] *)
Definition f_of_Z (z : Z) : f64 := binary_normalize 53 1024 _ _ mode_NE z 0 false.
(** [m * 2^e], rounded *)
Definition f_make (m e : Z) : f64 := binary_normalize 53 1024 _ _ mode_NE m e false.
(** conversion to a signed integer of [bits] bits: undefined unless the truncated value fits *)
Definition in_range (bits z : Z) : bool := (- 2 ^ (bits - 1) <=? z) && (z <? 2 ^ (bits - 1)).
Definition f_to_Z (bits : Z) (x : f64) : res Z :=
  if is_finite x && in_range bits (Btrunc x) then Ok (Btrunc x) else Ub.

Local Open Scope R_scope.
Notation fexp64 := (FLT_exp (-1074) 53).
Notation rnd := (round radix2 fexp64 ZnearestE).
Notation val := (B2R (prec := 53) (emax := 1024)).

Lemma rnd_half x : Rabs (rnd x - x) <= / 2 * bpow radix2 (-52) * Rabs x + / 2 * bpow radix2 (-1074).
Proof.
  destruct (error_N_FLT radix2 (-1074) 53 ltac:(reflexivity) (fun z => negb (Z.even z)) x) as (eps & eta & He & Ht & _ & E).
  change (round radix2 fexp64 (Znearest (fun z => negb (Z.even z))) x) with (rnd x) in E. rewrite E.
  replace (x * (1 + eps) + eta - x) with (x * eps + eta) by ring.
  eapply Rle_trans; [apply Rabs_triang|]. rewrite Rabs_mult. change (-53 + 1)%Z with (-52)%Z in He.
  apply Rplus_le_compat; [|exact Ht]. rewrite Rmult_comm. apply Rmult_le_compat_r; [apply Rabs_pos|exact He].
Qed.

Lemma fmt_Z z : (Z.abs z <= 2 ^ 53)%Z -> generic_format radix2 fexp64 (IZR z).
Proof.
  intros Hz. destruct (Z.eq_dec (Z.abs z) (2 ^ 53)) as [E|Hne].
  - assert (Hb : generic_format radix2 fexp64 (IZR (2 ^ 53))).
    { replace (IZR (2 ^ 53)) with (bpow radix2 53) by reflexivity. apply generic_format_bpow. vm_compute. discriminate. }
    destruct (Z.abs_eq_or_opp z) as [Ea|Ea]; rewrite Ea in E.
    + rewrite E. assumption.
    + replace z with (- 2 ^ 53)%Z by lia. rewrite opp_IZR. apply generic_format_opp. assumption.
  - apply generic_format_FLT. exists (Float radix2 z 0); cbn.
    + unfold F2R; cbn. ring.
    + lia.
    + lia.
Qed.

Lemma bpow_1024_big z : (Z.abs z <= 2 ^ 64)%Z -> Rabs (rnd (IZR z)) < bpow radix2 1024.
Proof.
  intros Hz. apply Rle_lt_trans with (bpow radix2 64).
  - apply abs_round_le_generic; [typeclasses eauto|typeclasses eauto| |].
    + apply generic_format_bpow. vm_compute. discriminate.
    + replace (bpow radix2 64) with (IZR (2 ^ 64)) by reflexivity. rewrite <- abs_IZR. apply IZR_le. assumption.
  - apply bpow_lt. lia.
Qed.

Lemma f_of_Z_val z : (Z.abs z <= 2 ^ 64)%Z -> val (f_of_Z z) = rnd (IZR z) /\ is_finite (f_of_Z z) = true.
Proof.
  intros Hz. pose proof (binary_normalize_correct 53 1024 _ _ mode_NE z 0 false) as C. cbv zeta in C.
  replace (F2R {| Fnum := z; Fexp := 0 |}) with (IZR z) in C by (unfold F2R; cbn; ring).
  rewrite Rlt_bool_true in C by (apply bpow_1024_big; assumption). destruct C as (C1 & C2 & _). split; [exact C1|exact C2].
Qed.
Lemma f_of_Z_exact z : (Z.abs z <= 2 ^ 53)%Z -> val (f_of_Z z) = IZR z /\ is_finite (f_of_Z z) = true.
Proof.
  intros Hz. destruct (f_of_Z_val z) as [E F]; [lia|]. split; [|assumption]. rewrite E. apply round_generic; [typeclasses eauto|]. apply fmt_Z. assumption.
Qed.

(** rounding to an integer type *)
Lemma round_FIX0 f x : round radix2 (FIX_exp 0) f x = IZR (f x).
Proof. unfold round, scaled_mantissa, cexp, FIX_exp, F2R. cbn. rewrite !Rmult_1_r. reflexivity. Qed.
Lemma Btrunc_val (x : f64) : Btrunc x = Ztrunc (val x).
Proof. apply eq_IZR. rewrite Btrunc_correct by typeclasses eauto. apply round_FIX0. Qed.
Lemma floor_val x : val (ffloor x) = IZR (Zfloor (val x)) /\ is_finite (ffloor x) = is_finite x.
Proof.
  destruct (Bnearbyint_correct 53 1024 _ mode_DN x) as (E & F & _). split; [|exact F]. unfold ffloor. rewrite E. apply round_FIX0.
Qed.
Lemma Btrunc_floor x : Btrunc (ffloor x) = Zfloor (val x).
Proof. rewrite Btrunc_val, (proj1 (floor_val x)). apply Ztrunc_IZR. Qed.

(** ** operations without overflow *)
Lemma fdiv_val x y : is_finite x = true -> val y <> 0 -> Rabs (rnd (val x / val y)) < bpow radix2 1024 ->
  val (fdiv x y) = rnd (val x / val y) /\ is_finite (fdiv x y) = true.
Proof.
  intros Fx Hy Hb. pose proof (Bdiv_correct 53 1024 _ _ mode_NE x y Hy) as C. rewrite Rlt_bool_true in C by exact Hb.
  destruct C as (C1 & C2 & _). split; [exact C1|]. unfold fdiv. rewrite C2. exact Fx.
Qed.
Lemma fsub_val x y : is_finite x = true -> is_finite y = true -> Rabs (rnd (val x - val y)) < bpow radix2 1024 ->
  val (fsub x y) = rnd (val x - val y) /\ is_finite (fsub x y) = true.
Proof.
  intros Fx Fy Hb. pose proof (Bminus_correct 53 1024 _ _ mode_NE x y Fx Fy) as C. rewrite Rlt_bool_true in C by exact Hb.
  destruct C as (C1 & C2 & _). split; [exact C1|exact C2].
Qed.
Lemma fadd_val x y : is_finite x = true -> is_finite y = true -> Rabs (rnd (val x + val y)) < bpow radix2 1024 ->
  val (fadd x y) = rnd (val x + val y) /\ is_finite (fadd x y) = true.
Proof.
  intros Fx Fy Hb. pose proof (Bplus_correct 53 1024 _ _ mode_NE x y Fx Fy) as C. rewrite Rlt_bool_true in C by exact Hb.
  destruct C as (C1 & C2 & _). split; [exact C1|exact C2].
Qed.
Lemma fmul_val x y : is_finite x = true -> is_finite y = true -> Rabs (rnd (val x * val y)) < bpow radix2 1024 ->
  val (fmul x y) = rnd (val x * val y) /\ is_finite (fmul x y) = true.
Proof.
  intros Fx Fy Hb. pose proof (Bmult_correct 53 1024 _ _ mode_NE x y) as C. rewrite Rlt_bool_true in C by exact Hb.
  destruct C as (C1 & C2 & _). split; [exact C1|]. unfold fmul. rewrite C2, Fx, Fy. reflexivity.
Qed.
Lemma rnd_lt_max x k : (k <= 1000)%Z -> Rabs x <= bpow radix2 k -> (-1074 <= k)%Z -> Rabs (rnd x) < bpow radix2 1024.
Proof.
  intros Hk Hx Hk'. apply Rle_lt_trans with (bpow radix2 k).
  - apply abs_round_le_generic; [typeclasses eauto|typeclasses eauto| |assumption]. apply generic_format_bpow. unfold FLT_exp. lia.
  - apply bpow_lt. lia.
Qed.

(** ** division of integers below 2^53 *)
Theorem floor_rnd_div a b : (Z.abs a < 2 ^ 53)%Z -> (Z.abs b <= 2 ^ 63)%Z -> b <> 0%Z ->
  Zfloor (rnd (IZR a / IZR b)) = (a / b)%Z.
Proof.
  intros Ha Hb Hb0. assert (Hbr : IZR b <> 0) by (apply not_0_IZR; assumption).
  set (x := IZR a / IZR b). set (n := (a / b)%Z). pose proof (Z.div_mod a b Hb0) as Hdm. fold n in Hdm.
  assert (Hn : (Z.abs n <= 2 ^ 53)%Z).
  { unfold n. assert (Z.abs (a / b) <= Z.abs a)%Z; [|lia]. destruct (Z.lt_trichotomy b 0) as [Hneg|[?|Hpos]]; [|lia|].
    - pose proof (Z.mod_neg_bound a b Hneg). nia.
    - pose proof (Z.mod_pos_bound a b Hpos). nia. }
  assert (Hlo : IZR n <= x).
  { unfold x. apply Rminus_le. replace (IZR n - IZR a / IZR b) with (- (IZR (a mod b) / IZR b)).
    - assert (0 <= IZR (a mod b) / IZR b); [|lra]. destruct (Z.lt_trichotomy b 0) as [Hneg|[?|Hpos]]; [|lia|].
      + pose proof (Z.mod_neg_bound a b Hneg). replace (IZR (a mod b) / IZR b) with (IZR (- (a mod b)) / IZR (- b)) by (rewrite !opp_IZR; field; assumption).
        apply Rmult_le_pos; [apply IZR_le; lia|]. left. apply Rinv_0_lt_compat, IZR_lt. lia.
      + pose proof (Z.mod_pos_bound a b Hpos). apply Rmult_le_pos; [apply IZR_le; lia|]. left. apply Rinv_0_lt_compat, IZR_lt. lia.
    - rewrite Hdm at 2. rewrite plus_IZR, mult_IZR. field. assumption. }
  (* distance from the integer above *)
  assert (Hab : 0 < Rabs (IZR b)) by (apply Rabs_pos_lt; assumption).
  assert (Hhi : x + / Rabs (IZR b) <= IZR (n + 1)).
  { unfold x. destruct (Z.lt_trichotomy b 0) as [Hneg|[?|Hpos]]; [|lia|].
    - pose proof (Z.mod_neg_bound a b Hneg). rewrite Rabs_left by (apply IZR_lt; assumption).
      apply Rmult_le_reg_r with (- IZR b); [rewrite <- opp_IZR; apply IZR_lt; lia|].
      replace ((IZR a / IZR b + / - IZR b) * - IZR b) with (- IZR a + 1) by (field; lra). rewrite <- !opp_IZR, <- plus_IZR, <- mult_IZR. apply IZR_le. nia.
    - pose proof (Z.mod_pos_bound a b Hpos). rewrite Rabs_pos_eq by (apply IZR_le; lia).
      apply Rmult_le_reg_r with (IZR b); [apply IZR_lt; lia|].
      replace ((IZR a / IZR b + / IZR b) * IZR b) with (IZR a + 1) by (field; assumption). rewrite <- plus_IZR, <- mult_IZR. apply IZR_le. nia. }
  apply Zfloor_imp. split.
  - apply round_ge_generic; [typeclasses eauto|typeclasses eauto|apply fmt_Z; assumption|assumption].
  - destruct (Z.eq_dec a 0) as [->|Ha0].
    { assert (Ex : x = 0) by (unfold x, Rdiv; apply Rmult_0_l). rewrite Ex in *. rewrite round_0 by typeclasses eauto. assert (0 < / Rabs (IZR b)) by (apply Rinv_0_lt_compat; assumption). lra. }
    pose proof (rnd_half x) as He.
    assert (Hx : Rabs x = IZR (Z.abs a) / Rabs (IZR b)).
    { unfold x, Rdiv. rewrite Rabs_mult, Rabs_inv, abs_IZR. reflexivity. }
    assert (Ha' : IZR (Z.abs a) <= IZR (2 ^ 53) - 1) by (rewrite <- minus_IZR; apply IZR_le; lia).
    assert (Hb' : Rabs (IZR b) <= IZR (2 ^ 63)) by (rewrite <- abs_IZR; apply IZR_le; assumption).
    assert (Hmin : bpow radix2 (-1074) < bpow radix2 (-52) * / Rabs (IZR b)).
    { apply Rlt_le_trans with (bpow radix2 (-52) * bpow radix2 (-63)); [rewrite <- bpow_plus; apply bpow_lt; lia|].
      apply Rmult_le_compat_l; [apply bpow_ge_0|]. change (bpow radix2 (-63)) with (/ IZR (2 ^ 63)). apply Rinv_le; assumption. }
    assert (Hlt : / 2 * bpow radix2 (-52) * Rabs x + / 2 * bpow radix2 (-1074) < / Rabs (IZR b)).
    { rewrite Hx. assert (Hib : 0 < / Rabs (IZR b)) by (apply Rinv_0_lt_compat; assumption).
      assert (H52 : bpow radix2 (-52) * IZR (2 ^ 53) = 2).
      { replace (IZR (2 ^ 53)) with (bpow radix2 53) by reflexivity. rewrite <- bpow_plus. reflexivity. }
      assert (Hp : 0 < bpow radix2 (-52)) by apply bpow_gt_0.
      apply Rle_lt_trans with (/ 2 * bpow radix2 (-52) * ((IZR (2 ^ 53) - 1) * / Rabs (IZR b)) + / 2 * bpow radix2 (-1074)).
      - apply Rplus_le_compat_r. apply Rmult_le_compat_l; [lra|]. unfold Rdiv. apply Rmult_le_compat_r; lra.
      - replace (/ 2 * bpow radix2 (-52) * ((IZR (2 ^ 53) - 1) * / Rabs (IZR b))) with (/ 2 * (bpow radix2 (-52) * IZR (2 ^ 53)) * / Rabs (IZR b) - / 2 * (bpow radix2 (-52) * / Rabs (IZR b))) by ring.
        rewrite H52. lra. }
    apply Rabs_le_inv in He. lra.
Qed.
