(** [islinspace] on [double] edges that it accepts: the edges are close to evenly spaced. *)
From Coq Require Import Reals Psatz.
From Flocq Require Import Core BinarySingleNaN.
From Verif Require Import Base Float Numeric_Model Lookup_Model Lookup_Proofs.
Local Open Scope R_scope.

Lemma steps_up e n D t : (forall i, (0 <= i < n)%Z -> Rabs (Rabs (e (i + 1)%Z - e i) - D) <= t) ->
  forall k i, (0 <= i)%Z -> (i + Z.of_nat k <= n)%Z -> e (i + Z.of_nat k)%Z - e i <= IZR (Z.of_nat k) * (D + t).
Proof.
  intros Hs k. induction k as [|k IH]; intros i Hi Hk.
  - rewrite Z.add_0_r. change (IZR (Z.of_nat 0)) with 0. lra.
  - rewrite Nat2Z.inj_succ in *. unfold Z.succ in *. rewrite plus_IZR. specialize (IH i Hi ltac:(lia)).
    specialize (Hs (i + Z.of_nat k)%Z ltac:(lia)). rewrite Z.add_assoc. apply Rabs_le_inv in Hs.
    pose proof (Rle_abs (e (i + Z.of_nat k + 1)%Z - e (i + Z.of_nat k)%Z)). lra.
Qed.

Lemma steps_linear e n D t : (1 <= n)%Z -> e n - e 0%Z = IZR n * D -> 0 < D -> 0 <= t -> IZR n * t <= D / 8 ->
  (forall i, (0 <= i < n)%Z -> Rabs (Rabs (e (i + 1)%Z - e i) - D) <= t) -> nearly_linear e n.
Proof.
  intros Hn Hw HD Ht Hnt Hs. assert (Hn1 : 1 <= IZR n) by (apply IZR_le; lia).
  assert (Hpos : forall i, (0 <= i < n)%Z -> Rabs (e (i + 1)%Z - e i - D) <= t).
  { intros i Hi. pose proof (Hs i Hi) as Hd. pose proof (steps_up e n D t Hs (Z.to_nat i) 0 ltac:(lia) ltac:(lia)) as U1.
    pose proof (steps_up e n D t Hs (Z.to_nat (n - (i + 1))) (i + 1)%Z ltac:(lia) ltac:(lia)) as U2.
    rewrite Z2Nat.id in U1, U2 by lia. rewrite Z.add_0_l in U1. replace (i + 1 + (n - (i + 1)))%Z with n in U2 by lia.
    rewrite minus_IZR, plus_IZR in U2. destruct (Rle_lt_dec 0 (e (i + 1)%Z - e i)) as [Hp|Hneg].
    - rewrite (Rabs_pos_eq _ Hp) in Hd. exact Hd.
    - exfalso. rewrite (Rabs_left _ Hneg) in Hd. apply Rabs_le_inv in Hd. set (N := IZR n) in *. set (I := IZR i) in *.
      assert (e n - e 0%Z <= (N - 1) * (D + t) - (D - t)) by lra. assert ((N - 1) * (D + t) = N * D - D + N * t - t) by ring. lra. }
  assert (Hall : forall k, (Z.of_nat k <= n)%Z -> Rabs (e (Z.of_nat k) - (e 0%Z + IZR (Z.of_nat k) * D)) <= IZR (Z.of_nat k) * t).
  { induction k as [|k IH]; intros Hk.
    - change (IZR (Z.of_nat 0)) with 0. change (Z.of_nat 0) with 0%Z. replace (e 0%Z - (e 0%Z + 0 * D)) with 0 by ring. rewrite Rabs_R0. lra.
    - rewrite Nat2Z.inj_succ in *. unfold Z.succ in *. specialize (IH ltac:(lia)). specialize (Hpos (Z.of_nat k) ltac:(lia)). rewrite plus_IZR.
      set (I := IZR (Z.of_nat k)) in *. replace (e (Z.of_nat k + 1)%Z - (e 0%Z + (I + 1) * D)) with (e (Z.of_nat k) - (e 0%Z + I * D) + (e (Z.of_nat k + 1)%Z - e (Z.of_nat k) - D)) by ring.
      eapply Rle_trans; [apply Rabs_triang|]. lra. }
  intros i Hi. rewrite Hw. replace (IZR n * D / IZR n) with D by (field; lra). specialize (Hall (Z.to_nat i) ltac:(lia)). rewrite Z2Nat.id in Hall by lia.
  eapply Rle_trans; [exact Hall|]. eapply Rle_trans; [|exact Hnt]. apply Rmult_le_compat_r; [exact Ht|]. apply IZR_le. lia.
Qed.

Lemma mul_bound x e u X : Rabs x <= X -> Rabs e <= u -> - (u * X) <= x * e <= u * X.
Proof.
  intros Hx He. apply Rabs_le_inv. rewrite Rabs_mult, Rmult_comm. apply Rmult_le_compat; try apply Rabs_pos; assumption.
Qed.

(** rounding errors of the comparison, over the reals: [d] the distance of two edges *)
Lemma tolerance_real u h M w D N d (e1 e2 e3 e4 e5 e6 e7 h1 h2 h3 h4 h5 h6 h7 : R) :
  0 < u <= / 1000000 -> 0 <= h -> h <= u * u * M -> 0 < w <= M -> 1 <= N -> D = w / N -> 0 <= d ->
  Rabs e1 <= u -> Rabs e2 <= u -> Rabs e3 <= u -> Rabs e4 <= u -> Rabs e5 <= u -> Rabs e6 <= u -> Rabs e7 <= u ->
  Rabs h1 <= h -> Rabs h2 <= h -> Rabs h3 <= h -> Rabs h4 <= h -> Rabs h5 <= h -> Rabs h6 <= h -> Rabs h7 <= h ->
  let s := Rabs (d * (1 + e1) + h1) in
  let delta := (w * (1 + e2) + h2) / N * (1 + e3) + h3 in
  let eps := (2 * u * (M * (1 + e4) + h4) * (1 + e5) + h5) * 4 * (1 + e6) + h6 in
  Rabs ((s - delta) * (1 + e7) + h7) <= eps -> Rabs (d - D) <= 12 * u * M.
Proof.
  intros [Hu Hus] Hh0 Hh [Hw0 Hw] HN HD Hd E1 E2 E3 E4 E5 E6 E7 H1 H2 H3 H4 H5 H6 H7 s delta eps Hle.
  assert (HM : 0 < M) by lra. assert (Hum : 0 < u * M) by (apply Rmult_lt_0_compat; assumption).
  assert (Huu : u * (u * M) <= u * M / 1000000) by (replace (u * M / 1000000) with (/ 1000000 * (u * M)) by field; apply Rmult_le_compat_r; lra).
  assert (HuM : u * M <= M / 1000000) by (replace (M / 1000000) with (/ 1000000 * M) by field; apply Rmult_le_compat_r; lra).
  rewrite Rmult_assoc in Hh. apply Rabs_le_inv in H1, H2, H3, H4, H5, H6, H7.
  assert (Heps : eps <= 81 / 10 * (u * M)).
  { unfold eps. pose proof (mul_bound M e4 u M ltac:(rewrite Rabs_pos_eq; lra) E4) as B4. set (q4 := M * (1 + e4) + h4).
    assert (Hq4 : 0 <= q4 <= M + M / 500000) by (unfold q4; lra).
    pose proof (mul_bound (2 * u * q4) e5 u (2 * u * (M + M / 500000)) ltac:(rewrite Rabs_pos_eq; [apply Rmult_le_compat_l; lra|apply Rmult_le_pos; lra]) E5) as B5.
    set (q5 := 2 * u * q4 * (1 + e5) + h5).
    assert (Hb : 0 <= 2 * u * q4 <= 2 * (u * M) * (500001 / 500000)).
    { split; [apply Rmult_le_pos; lra|]. replace (2 * (u * M) * (500001 / 500000)) with (2 * u * (M + M / 500000)) by field. apply Rmult_le_compat_l; lra. }
    replace (u * (2 * u * (M + M / 500000))) with (2 * (500001 / 500000) * (u * (u * M))) in B5 by field.
    assert (Hq5 : - (u * M) / 100000 <= q5 <= 2 * (u * M) * (100001 / 100000)) by (unfold q5; lra).
    pose proof (mul_bound (q5 * 4) e6 u (9 * (u * M)) ltac:(apply Rabs_le; lra) E6) as B6. 
    replace (u * (9 * (u * M))) with (9 * (u * (u * M))) in B6 by ring. lra. }
  assert (Hsd : Rabs (s - delta) <= 82 / 10 * (u * M)).
  { pose proof (mul_bound (s - delta) e7 u (Rabs (s - delta)) ltac:(lra) E7) as B7. apply Rabs_le_inv in Hle.
    assert (Hb : u * Rabs (s - delta) <= Rabs (s - delta) / 1000000) by (replace (Rabs (s - delta) / 1000000) with (/ 1000000 * Rabs (s - delta)) by field; apply Rmult_le_compat_r; [apply Rabs_pos|lra]).
    revert B7 Hb Hle. unfold Rabs. destruct (Rcase_abs (s - delta)); intros; lra. }
  assert (HDM : 0 < D <= M).
  { rewrite HD. split; [apply Rmult_lt_0_compat; [lra|apply Rinv_0_lt_compat; lra]|]. apply Rle_trans with w; [|lra]. unfold Rdiv. rewrite <- (Rmult_1_r w) at 2. apply Rmult_le_compat_l; [lra|].
    rewrite <- Rinv_1. apply Rinv_le; lra. }
  assert (Hdel : Rabs (delta - D) <= 22 / 10 * (u * M)).
  { unfold delta. set (q := (w * (1 + e2) + h2) / N).
    assert (Hq : Rabs (q - D) <= 1000001 / 1000000 * (u * M)).
    { unfold q. rewrite HD. replace ((w * (1 + e2) + h2) / N - w / N) with ((w * e2 + h2) * / N) by (field; lra).
      pose proof (mul_bound w e2 u M ltac:(rewrite Rabs_pos_eq; lra) E2) as B2.
      assert (Hi : 0 < / N <= 1) by (split; [apply Rinv_0_lt_compat; lra|rewrite <- Rinv_1; apply Rinv_le; lra]).
      rewrite Rabs_mult, (Rabs_pos_eq (/ N)) by lra. apply Rle_trans with (Rabs (w * e2 + h2) * 1); [apply Rmult_le_compat_l; [apply Rabs_pos|lra]|]. rewrite Rmult_1_r. apply Rabs_le. lra. }
    apply Rabs_le_inv in Hq. pose proof (mul_bound q e3 u (M + M / 100000) ltac:(apply Rabs_le; lra) E3) as B3.
    replace (u * (M + M / 100000)) with (u * M * (100001 / 100000)) in B3 by field. apply Rabs_le. lra. }
  apply Rabs_le_inv in Hsd, Hdel. pose proof (mul_bound d e1 u d ltac:(rewrite Rabs_pos_eq; lra) E1) as B1.
  assert (Hud : u * d <= d / 1000000) by (replace (d / 1000000) with (/ 1000000 * d) by field; apply Rmult_le_compat_r; lra).
  assert (Hs : - (u * d) - u * M / 1000000 <= s - d <= u * d + u * M / 1000000).
  { unfold s. unfold Rabs. destruct (Rcase_abs (d * (1 + e1) + h1)); lra. }
  assert (Hd' : d <= 11 / 10 * M) by lra.
  assert (u * d <= 11 / 10 * (u * M)) by (replace (11 / 10 * (u * M)) with (u * (11 / 10 * M)) by ring; apply Rmult_le_compat_l; lra).
  apply Rabs_le. lra.
Qed.

Lemma rnd_le x k : (-1074 <= k)%Z -> Rabs x <= bpow radix2 k -> Rabs (rnd x) <= bpow radix2 k.
Proof.
  intros Hk Hx. apply abs_round_le_generic; [typeclasses eauto|typeclasses eauto| |exact Hx]. apply generic_format_bpow. unfold FLT_exp. lia.
Qed.
Lemma bpow_double k : bpow radix2 (k + 1) = 2 * bpow radix2 k.
Proof. rewrite bpow_plus. change (bpow radix2 1) with 2. ring. Qed.

Lemma f_eps_val : val f_eps = 2 * u53 /\ is_finite f_eps = true.
Proof.
  split; [|reflexivity]. replace (2 * u53) with (bpow radix2 (-52)) by (change (-52)%Z with (-53 + 1)%Z; symmetry; symmetry; apply bpow_double).
  unfold f_eps, f_make. pose proof (binary_normalize_correct 53 1024 _ _ mode_NE 1 (-52) false) as C. cbv zeta in C.
  replace (F2R {| Fnum := 1; Fexp := -52 |}) with (bpow radix2 (-52)) in C by (unfold F2R; cbn [Fnum Fexp]; ring).
  assert (E : rnd (bpow radix2 (-52)) = bpow radix2 (-52)) by (apply round_generic; [typeclasses eauto|]; apply generic_format_bpow; vm_compute; discriminate).
  change (round radix2 (SpecFloat.fexp 53 1024) (round_mode mode_NE) (bpow radix2 (-52))) with (rnd (bpow radix2 (-52))) in C. rewrite E in C.
  rewrite Rlt_bool_true in C by (rewrite Rabs_pos_eq by apply bpow_ge_0; apply bpow_lt; reflexivity). exact (proj1 C).
Qed.

Lemma fabs_val x : val (fabs x) = Rabs (val x) /\ is_finite (fabs x) = is_finite x.
Proof. split; [apply B2R_Babs|apply is_finite_Babs]. Qed.

Lemma fltb_val x y : is_finite x = true -> is_finite y = true -> fltb x y = false -> val y <= val x.
Proof.
  intros Fx Fy E. unfold fltb in E. rewrite Bltb_correct in E by assumption. destruct (Rlt_bool_spec (val x) (val y)); [discriminate|assumption].
Qed.

Lemma sub_finite k x y : (-1074 <= k <= 990)%Z -> is_finite x = true -> is_finite y = true -> Rabs (val x) <= bpow radix2 k -> Rabs (val y) <= bpow radix2 k ->
  val (fsub x y) = rnd (val x - val y) /\ is_finite (fsub x y) = true /\ Rabs (val (fsub x y)) <= bpow radix2 (k + 1).
Proof.
  intros Hk Fx Fy Hx Hy. assert (Hb : Rabs (val x - val y) <= bpow radix2 (k + 1)) by (rewrite bpow_double; apply Rabs_le_inv in Hx, Hy; apply Rabs_le; lra).
  destruct (fsub_val x y Fx Fy) as [E F]; [apply (rnd_lt_max _ (k + 1)); [lia|exact Hb|lia]|]. split; [exact E|]. split; [exact F|].
  rewrite E. apply rnd_le; [lia|exact Hb].
Qed.

(** The test of two neighbours [x], [y] with first edge [a] and last edge [z]. *)
Lemma lin_test n (x y a z : f64) : (1 <= n <= 2 ^ 40)%Z -> is_finite x = true -> is_finite y = true -> is_finite a = true -> is_finite z = true ->
  Rabs (val x) <= bpow radix2 900 -> Rabs (val y) <= bpow radix2 900 -> Rabs (val a) <= bpow radix2 900 -> Rabs (val z) <= bpow radix2 900 ->
  bpow radix2 (-900) <= val z - val a ->
  fltb (fmul (fmul f_eps (fadd (fabs a) (fabs z))) (f_of_Z 4)) (fabs (fsub (fabs (fsub y x)) (fdiv (fsub z a) (f_of_Z n)))) = false ->
  Rabs (Rabs (val y - val x) - (val z - val a) / IZR n) <= 12 * u53 * (Rabs (val a) + Rabs (val z)).
Proof.
  intros Hn Fx Fy Fa Fz Bx By Ba Bz Hw Ht.
  assert (HN : 1 <= IZR n) by (apply IZR_le; apply Hn).
  destruct (f_of_Z_exact n) as [EN FN]; [clear - Hn; lia|]. destruct (f_of_Z_exact 4) as [E4 F4]; [discriminate|]. destruct f_eps_val as [Ee Fe].
  destruct (sub_finite 900 y x ltac:(split; discriminate) Fy Fx By Bx) as (Es & Fs & Bs). destruct (sub_finite 900 z a ltac:(split; discriminate) Fz Fa Bz Ba) as (Ew & Fw & Bw).
  change (900 + 1)%Z with 901%Z in Bs, Bw.
  assert (Hdiv : Rabs (val (fsub z a) / IZR n) <= bpow radix2 901).
  { unfold Rdiv. rewrite Rabs_mult. assert (Hi : 0 < / IZR n <= 1) by (split; [apply Rinv_0_lt_compat; lra|rewrite <- Rinv_1; apply Rinv_le; lra]).
    rewrite (Rabs_pos_eq (/ IZR n)) by lra. apply Rle_trans with (Rabs (val (fsub z a)) * 1); [apply Rmult_le_compat_l; [apply Rabs_pos|lra]|]. rewrite Rmult_1_r. exact Bw. }
  destruct (fdiv_val (fsub z a) (f_of_Z n) Fw) as [Ed Fd]; [rewrite EN; lra|rewrite EN; apply (rnd_lt_max _ 901); [discriminate|exact Hdiv|discriminate]|].
  rewrite EN in Ed. assert (Bd : Rabs (val (fdiv (fsub z a) (f_of_Z n))) <= bpow radix2 901) by (rewrite Ed; apply rnd_le; [discriminate|exact Hdiv]).
  destruct (fabs_val (fsub y x)) as [Eas Fas]. rewrite Fs in Fas.
  destruct (sub_finite 901 (fabs (fsub y x)) (fdiv (fsub z a) (f_of_Z n)) ltac:(split; discriminate) Fas Fd ltac:(rewrite Eas, Rabs_Rabsolu; exact Bs) Bd) as (Et & Ft & _).
  destruct (fabs_val a) as [Eaa Faa]. destruct (fabs_val z) as [Eaz Faz]. rewrite Fa in Faa. rewrite Fz in Faz.
  set (M := Rabs (val a) + Rabs (val z)). assert (BM : Rabs M <= bpow radix2 901).
  { change 901%Z with (900 + 1)%Z. rewrite bpow_double. unfold M. rewrite Rabs_pos_eq by (pose proof (Rabs_pos (val a)); pose proof (Rabs_pos (val z)); lra). lra. }
  destruct (fadd_val (fabs a) (fabs z) Faa Faz) as [EM FM]; [rewrite Eaa, Eaz; apply (rnd_lt_max _ 901); [discriminate|exact BM|discriminate]|].
  rewrite Eaa, Eaz in EM. fold M in EM. assert (BrM : Rabs (rnd M) <= bpow radix2 901) by (apply rnd_le; [discriminate|exact BM]).
  assert (Hu : 0 < u53 <= / 1000000) by apply u53_small.
  assert (Bp : Rabs (2 * u53 * rnd M) <= bpow radix2 901).
  { rewrite Rabs_mult, (Rabs_pos_eq (2 * u53)) by lra. apply Rle_trans with (1 * Rabs (rnd M)); [apply Rmult_le_compat_r; [apply Rabs_pos|lra]|]. rewrite Rmult_1_l. exact BrM. }
  destruct (fmul_val f_eps (fadd (fabs a) (fabs z)) Fe FM) as [Ep Fp]; [rewrite Ee, EM; apply (rnd_lt_max _ 901); [discriminate|exact Bp|discriminate]|].
  rewrite Ee, EM in Ep. assert (Brp : Rabs (rnd (2 * u53 * rnd M)) <= bpow radix2 901) by (apply rnd_le; [discriminate|exact Bp]).
  assert (Bq : Rabs (rnd (2 * u53 * rnd M) * 4) <= bpow radix2 903).
  { change 903%Z with (901 + 1 + 1)%Z. rewrite !bpow_double, Rabs_mult, (Rabs_pos_eq 4) by lra. lra. }
  destruct (fmul_val (fmul f_eps (fadd (fabs a) (fabs z))) (f_of_Z 4) Fp F4) as [Eq Fq]; [rewrite Ep, E4; apply (rnd_lt_max _ 903); [discriminate|exact Bq|discriminate]|].
  rewrite Ep, E4 in Eq. apply fltb_val in Ht; [|exact Fq|rewrite (proj2 (fabs_val _)); exact Ft].
  rewrite (proj1 (fabs_val _)), Et, Eas, Es, Ed, Ew, Eq in Ht. rewrite <- round_NE_abs in Ht by typeclasses eauto.
  clear Ed Bd Et Ft Fd Eq Fq Ep Fp EM FM Eas Fas Es Fs Bs Ew Fw Hdiv Bw Bq Brp Bp BrM Eaa Eaz E4 F4 EN FN Ee Fe Faa Faz.
  set (d := Rabs (val y - val x)) in *. set (w := val z - val a) in *.
  assert (HwM : w <= M).
  { unfold w, M. pose proof (Rle_abs (val z)). pose proof (Rle_abs (- val a)). rewrite Rabs_Ropp in *. lra. }
  destruct (rnd_abs d) as (e1 & h1 & E1 & H1 & R1). destruct (rnd_abs w) as (e2 & h2 & E2 & H2 & R2).
  destruct (rnd_abs (rnd w / IZR n)) as (e3 & h3 & E3 & H3 & R3). destruct (rnd_abs M) as (e4 & h4 & E4 & H4 & R4).
  destruct (rnd_abs (2 * u53 * rnd M)) as (e5 & h5 & E5 & H5 & R5). destruct (rnd_abs (rnd (2 * u53 * rnd M) * 4)) as (e6 & h6 & E6 & H6 & R6).
  destruct (rnd_abs (Rabs (rnd (val y - val x)) - rnd (rnd w / IZR n))) as (e7 & h7 & E7 & H7 & R7).
  rewrite <- (round_NE_abs radix2 fexp64) in R7 by typeclasses eauto. fold d in Ht, R7.
  rewrite <- (round_NE_abs radix2 fexp64) in Ht by typeclasses eauto. rewrite (round_NE_abs radix2 fexp64) in Ht by typeclasses eauto.
  assert (Hrd : 0 <= rnd d) by (apply round_ge_generic; [typeclasses eauto|typeclasses eauto|apply generic_format_0|apply Rabs_pos]).
  assert (Hh : bpow radix2 (-1074) <= u53 * u53 * M).
  { rewrite <- bpow_plus. apply Rle_trans with (bpow radix2 (-53 + -53) * bpow radix2 (-900)); [rewrite <- bpow_plus; apply bpow_le; discriminate|].
    apply Rmult_le_compat_l; [apply bpow_ge_0|]. lra. }
  assert (Hw0 : 0 < w) by (eapply Rlt_le_trans; [apply bpow_gt_0|exact Hw]).
  refine (tolerance_real u53 (bpow radix2 (-1074)) M w (w / IZR n) (IZR n) d e1 e2 e3 e4 e5 e6 e7 h1 h2 h3 h4 h5 h6 h7 Hu (bpow_ge_0 _ _) Hh (conj Hw0 HwM) HN eq_refl (Rabs_pos _)
    E1 E2 E3 E4 E5 E6 E7 H1 H2 H3 H4 H5 H6 H7 _).
  rewrite <- R1, <- R2, <- R3, <- R4, <- R5, <- R6. rewrite (Rabs_pos_eq (rnd d) Hrd), <- R7. exact Ht.
Qed.

Lemma no_adjacent_nth {A} (p : A -> A -> bool) l : no_adjacent p l = true -> forall k x y, nth_error l k = Some x -> nth_error l (S k) = Some y -> p x y = false.
Proof.
  induction l as [|a l IH]; intros E k x y Hx Hy; [destruct k; discriminate|].
  destruct l as [|b l]; [destruct k; discriminate|]. cbn [no_adjacent] in E. apply andb_true_iff in E. destruct E as [E1 E2].
  destruct k as [|k].
  - cbn in Hx, Hy. injection Hx as <-. injection Hy as <-. apply negb_true_iff. exact E1.
  - exact (IH E2 k x y Hx Hy).
Qed.
Lemma vget_nth {A} (l : list A) i x : vget l i = Ok x -> (0 <= i)%Z /\ nth_error l (Z.to_nat i) = Some x.
Proof.
  unfold vget. destruct (Z.ltb_spec i 0) as [?|Hi]; [discriminate|]. destruct (nth_error l (Z.to_nat i)); [|discriminate]. intros E. injection E as <-. auto.
Qed.
Lemma nth_vget {A} (l : list A) k x : nth_error l k = Some x -> vget l (Z.of_nat k) = Ok x.
Proof. intros E. unfold vget. destruct (Z.ltb_spec (Z.of_nat k) 0) as [?|_]; [lia|]. rewrite Nat2Z.id, E. reflexivity. Qed.
Lemma last_nth {A} (l : list A) d : l <> nil -> nth_error l (length l - 1) = Some (last l d).
Proof.
  induction l as [|a l IH]; [contradiction|]. intros _. destruct l as [|b l]; [reflexivity|].
  replace (length (a :: b :: l) - 1)%nat with (S (length (b :: l) - 1)) by (cbn; lia). cbn [nth_error].
  change (last (a :: b :: l) d) with (last (b :: l) d). apply IH. discriminate.
Qed.

Definition bounded (l : list f64) : Prop := Forall (fun e : f64 => is_finite e = true /\ Rabs (val e) <= bpow radix2 900) l.

Theorem islinspace_f64_linear (l : list f64) n : length l = S (Z.to_nat n) -> (1 <= n <= 2 ^ 40)%Z -> bounded l ->
  bpow radix2 (-900) <= vals l n - vals l 0 ->
  96 * u53 * (IZR n * IZR n) * (Rabs (vals l 0) + Rabs (vals l n)) <= vals l n - vals l 0 ->
  islinspace_f64 l = true -> nearly_linear (vals l) n.
Proof.
  intros Hlen Hn Hb Hw Ht Hl. assert (HN : 1 <= IZR n) by (apply IZR_le; apply Hn).
  assert (Hw0 : 0 < vals l n - vals l 0) by (eapply Rlt_le_trans; [apply bpow_gt_0|exact Hw]).
  assert (Hget : forall i, (0 <= i <= n)%Z -> exists e, nth_error l (Z.to_nat i) = Some e /\ vals l i = val e /\ is_finite e = true /\ Rabs (val e) <= bpow radix2 900).
  { intros i Hi. destruct (nth_error l (Z.to_nat i)) as [e|] eqn:En; [|apply nth_error_None in En; clear - En Hlen Hi; lia].
    exists e. split; [reflexivity|]. split; [apply vals_get; rewrite <- (Z2Nat.id i) by apply Hi; apply nth_vget; exact En|].
    unfold bounded in Hb. rewrite Forall_forall in Hb. apply Hb. apply nth_error_In in En. exact En. }
  destruct (Hget 0%Z) as (a & Ea & Va & Fa & Ba); [clear - Hn; lia|]. destruct (Hget n) as (z & Ez & Vz & Fz & Bz); [clear - Hn; lia|].
  assert (Hlast : last l a = z).
  { pose proof (last_nth l a) as E. rewrite Hlen in E. replace (S (Z.to_nat n) - 1)%nat with (Z.to_nat n) in E by (clear; lia). rewrite Ez in E.
    destruct l; [discriminate|]. specialize (E ltac:(discriminate)). injection E as ->. reflexivity. }
  assert (Hadj : no_adjacent (fun x y => fltb (lin_epsilon l a) (fabs (fsub (fabs (fsub y x)) (lin_delta l a)))) l = true).
  { destruct l as [|a' [|b l']]; [discriminate|discriminate|]. cbn [Z.to_nat nth_error] in Ea. injection Ea as ->. unfold islinspace_f64 in Hl.
    destruct (fleb _ _); [discriminate|exact Hl]. }
  pose proof (no_adjacent_nth _ _ Hadj) as Hstep. unfold lin_epsilon, lin_delta in Hstep. rewrite Hlast, Hlen in Hstep.
  replace (Z.of_nat (S (Z.to_nat n)) - 1)%Z with n in Hstep by (clear - Hn; lia). clear Hadj.
  set (D := (vals l n - vals l 0) / IZR n). assert (HM : 0 <= Rabs (vals l 0) + Rabs (vals l n)) by (pose proof (Rabs_pos (vals l 0)); pose proof (Rabs_pos (vals l n)); lra).
  pose proof u53_small as [Hu _].
  apply (steps_linear (vals l) n D (12 * u53 * (Rabs (vals l 0) + Rabs (vals l n)))); [apply Hn|unfold D; field; lra| | | |].
  - apply Rmult_lt_0_compat; [exact Hw0|apply Rinv_0_lt_compat; lra].
  - apply Rmult_le_pos; [lra|exact HM].
  - unfold D. set (M := Rabs (vals l 0) + Rabs (vals l n)) in *. set (w := vals l n - vals l 0) in *. clearbody M w. set (u := u53) in *. clearbody u.
    apply Rmult_le_reg_l with (IZR n * 8); [lra|]. replace (IZR n * 8 * (w / IZR n / 8)) with w by (field; lra).
    replace (IZR n * 8 * (IZR n * (12 * u * M))) with (96 * u * (IZR n * IZR n) * M) by ring. exact Ht.
  - intros i Hi. destruct (Hget i) as (x & Ex & Vx & Fx & Bx); [clear - Hi; lia|]. destruct (Hget (i + 1)%Z) as (y & Ey & Vy & Fy & By); [clear - Hi; lia|].
    replace (Z.to_nat (i + 1)) with (S (Z.to_nat i)) in Ey by (clear - Hi; lia). specialize (Hstep _ _ _ Ex Ey).
    unfold D. rewrite Vx, Vy. rewrite Va, Vz in *. exact (lin_test n x y a z Hn Fx Fy Fa Fz Bx By Ba Bz Hw Hstep).
Qed.
