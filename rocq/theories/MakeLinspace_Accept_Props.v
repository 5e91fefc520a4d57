(** C59: [islinspace] (C40) accepts the result of [linspace]. *)
From Coq Require Import Reals Lra Lia.
From Flocq Require Import Core BinarySingleNaN Relative.
From Verif Require Import Base Float Map_Model Dims_Model Dims_Spec Dims_Proofs View_Model View_Spec View_Proofs Accumulate_Model Numeric_Model Lookup_Proofs Linspace_Proofs MakeLinspace_Model MakeLinspace_Props.
Local Open Scope R_scope.
Notation val := (B2R (prec := 53) (emax := 1024)).
Notation fmt := (generic_format radix2 fexp64).

(** Error of one rounding, with the constants used below. *)
Lemma rnd_e x : Rabs (rnd x - x) <= bpow radix2 (-53) * Rabs x + bpow radix2 (-1075).
Proof.
  pose proof (rnd_half x) as He. replace (/ 2 * bpow radix2 (-52)) with (bpow radix2 (-53)) in He. 2:{ change (-53)%Z with (-1 + -52)%Z. rewrite bpow_plus. reflexivity. }
  replace (/ 2 * bpow radix2 (-1074)) with (bpow radix2 (-1075)) in He. 2:{ change (-1075)%Z with (-1 + -1074)%Z. rewrite bpow_plus. reflexivity. } exact He.
Qed.

Section Step.
Variable N : Z.
Hypothesis HN : (1 <= N <= 2 ^ 50)%Z.
Variables a b : R.
Hypothesis Fa : fmt a.
Hypothesis Fb : fmt b.
Hypothesis Hab : a <= b.
Let M := Rabs a + Rabs b.
Hypothesis HM : bpow radix2 (-900) <= M.
Let u := bpow radix2 (-53).
Let h := bpow radix2 (-1075).
Let r := rnd (b - a).
(** Element [i] including the last. *)
Definition elem (i : Z) : R := if (i <? N)%Z then lin N a b i else b.

Lemma u_small : 0 < u <= / 1000. 
Proof. unfold u. split; [apply bpow_gt_0|]. apply Rle_trans with (bpow radix2 (-10)); [apply bpow_le; lia|]. replace (bpow radix2 (-10)) with (/ 1024) by reflexivity. lra. Qed.
Lemma M_pos : 0 < M. Proof. pose proof (bpow_gt_0 radix2 (-900)). lra. Qed.
Lemma h_small : 0 < h /\ 1000 * h <= u * M /\ h <= / 1000 * u.
Proof.
  unfold h. split; [apply bpow_gt_0|]. split.
  - apply Rle_trans with (u * bpow radix2 (-900)); [|apply Rmult_le_compat_l; [unfold u; apply bpow_ge_0|exact HM]]. unfold u. rewrite <- bpow_plus.
    apply Rle_trans with (bpow radix2 10 * bpow radix2 (-1075)); [apply Rmult_le_compat_r; [apply bpow_ge_0|replace (bpow radix2 10) with 1024 by reflexivity; lra]|]. rewrite <- bpow_plus. apply bpow_le. lia.
  - unfold u. apply Rle_trans with (bpow radix2 (-10) * bpow radix2 (-53)); [rewrite <- bpow_plus; apply bpow_le; lia|]. apply Rmult_le_compat_r; [apply bpow_ge_0|]. replace (bpow radix2 (-10)) with (/ 1024) by reflexivity. lra.
Qed.
Lemma w_le : b - a <= M.
Proof. unfold M. pose proof (Rle_abs b). pose proof (Rle_abs (- a)). rewrite Rabs_Ropp in *. lra. Qed.
Lemma r_near : 0 <= r /\ Rabs (r - (b - a)) <= 1001 / 1000 * (u * M) /\ r <= 11 / 10 * M /\ u * r <= 101 / 100 * (u * M).
Proof.
  pose proof u_small as (U0 & U1). destruct h_small as (H0 & Hm & _). pose proof M_pos. pose proof w_le.
  pose proof (rnd_e (b - a)) as He. fold r u h in He. rewrite (Rabs_pos_eq (b - a)) in He by lra.
  assert (Huw : u * (b - a) <= u * M) by (apply Rmult_le_compat_l; lra). assert (Hr : Rabs (r - (b - a)) <= 1001 / 1000 * (u * M)) by lra.
  assert (HuM : u * M <= / 1000 * M) by (apply Rmult_le_compat_r; lra). assert (HuM0 : 0 < u * M) by (apply Rmult_lt_0_compat; lra).
  split; [unfold r; rewrite <- rnd_0; apply rnd_mono; lra|]. split; [exact Hr|]. apply Rabs_le_inv in Hr. split; [lra|].
  assert (Hr' : r <= M + 1001 / 1000 * (/ 1000 * M)) by lra. apply Rle_trans with (u * (M + 1001 / 1000 * (/ 1000 * M))); [apply Rmult_le_compat_l; lra|]. lra.
Qed.

(** Distance of an element from an exact multiple of the rounded range. *)
Lemma elem_near i : (0 <= i < N)%Z -> Rabs (elem i - (a + IZR i / IZR N * r)) <= 305 / 100 * (u * M).
Proof.
  intros Hi. unfold elem. rewrite (proj2 (Z.ltb_lt i N)) by lia.
  pose proof u_small as (U0 & U1). destruct h_small as (H0 & Hm & Hhu). pose proof M_pos as M0. destruct r_near as (R0 & _ & R1 & R2).
  pose proof (N_pos N HN) as N0. set (q := IZR i / IZR N).
  assert (Hq0 : 0 <= q). { unfold q, Rdiv. apply Rmult_le_pos; [apply IZR_le; lia|left; apply Rinv_0_lt_compat, N0]. }
  assert (Hq1 : q <= 1). { unfold q, Rdiv. apply Rmult_le_reg_r with (IZR N); [exact N0|]. rewrite Rmult_assoc, Rinv_l, Rmult_1_r, Rmult_1_l by lra. apply IZR_le. lia. }
  pose proof (frac_pos N HN i ltac:(lia)) as Hf0. pose proof (frac_below N HN i ltac:(lia)) as Hf1. pose proof (bpow_gt_0 radix2 (-50)) as P50.
  pose proof (rnd_e q) as Ef. change (rnd q) with (frac N i) in Ef. fold u h in Ef. rewrite (Rabs_pos_eq q Hq0) in Ef.
  pose proof (rnd_e (frac N i * r)) as Ep. change (rnd (frac N i * r)) with (prod N a b i) in Ep. fold u h in Ep.
  pose proof (rnd_e (a + prod N a b i)) as Ex. change (rnd (a + prod N a b i)) with (lin N a b i) in Ex. fold u h in Ex.
  pose proof (prod_pos N HN a b Hab i ltac:(lia)) as Hp0. pose proof (prod_le N HN a b Fa Fb Hab i ltac:(lia)) as Hp1.
  assert (Hap : Rabs (a + prod N a b i) <= M). { unfold M. unfold Rabs. repeat destruct Rcase_abs; lra. }
  set (f := frac N i) in *. set (p := prod N a b i) in *. set (x := lin N a b i) in *.
  assert (Hfr : 0 <= f * r) by (apply Rmult_le_pos; lra). rewrite (Rabs_pos_eq _ Hfr) in Ep. assert (Hfr1 : f * r <= r) by nra.
  assert (Hufr : u * (f * r) <= u * r) by (apply Rmult_le_compat_l; lra). assert (Huap : u * Rabs (a + p) <= u * M) by (apply Rmult_le_compat_l; lra).
  assert (Efr : Rabs (f * r - q * r) <= 1001 / 1000 * (u * r)).
  { replace (f * r - q * r) with ((f - q) * r) by ring. rewrite Rabs_mult, (Rabs_pos_eq r R0). assert (Rabs (f - q) <= 1001 / 1000 * u) by nra. replace (1001 / 1000 * (u * r)) with (1001 / 1000 * u * r) by ring. apply Rmult_le_compat_r; lra. }
  apply Rabs_le_inv in Ex, Ep, Efr. apply Rabs_le. lra.
Qed.
Lemma last_near : Rabs (elem N - (a + IZR N / IZR N * r)) <= 101 / 100 * (u * M).
Proof.
  unfold elem. rewrite Z.ltb_irrefl. unfold Rdiv. rewrite Rinv_r by (pose proof (N_pos N HN); lra). destruct r_near as (_ & Hr & _). pose proof u_small. pose proof M_pos. assert (0 < u * M) by (apply Rmult_lt_0_compat; lra).
  replace (b - (a + 1 * r)) with (- (r - (b - a))) by ring. rewrite Rabs_Ropp. lra.
Qed.
(** Neighbours differ by the rounded range divided by their number, up to rounding. *)
Lemma step_near i : (0 <= i < N)%Z -> Rabs (elem (i + 1) - elem i - r / IZR N) + 2 * (u * (r / IZR N)) <= 72 / 10 * (u * M).
Proof.
  intros Hi. pose proof (N_pos N HN) as N0. destruct r_near as (R0 & _ & _ & R2). pose proof u_small as (U0 & U1). pose proof M_pos as M0. assert (HuM : 0 < u * M) by (apply Rmult_lt_0_compat; lra).
  assert (Eq : IZR (i + 1) / IZR N * r = IZR i / IZR N * r + r / IZR N) by (rewrite plus_IZR; field; lra).
  pose proof (elem_near i Hi) as Ei. apply Rabs_le_inv in Ei.
  assert (Hinv : forall k, (1 <= k)%Z -> (k <= N)%Z -> u * (r / IZR N) <= 101 / 100 * (u * M) * / IZR k).
  { intros k Hk HkN. unfold Rdiv. rewrite <- Rmult_assoc. assert (Hkp : 0 < IZR k) by (apply IZR_lt; lia). apply Rmult_le_compat; [apply Rmult_le_pos; lra|left; apply Rinv_0_lt_compat; lra|lra|]. apply Rinv_le; [exact Hkp|apply IZR_le; lia]. }
  destruct (Z.eq_dec (i + 1) N) as [El|Nl].
  - pose proof last_near as Ej. rewrite <- El in Ej at 1 2. rewrite Eq in Ej. apply Rabs_le_inv in Ej. pose proof (Hinv 1%Z ltac:(lia) ltac:(lia)) as Hk. rewrite Rinv_1 in Hk.
    assert (Hs : Rabs (elem (i + 1) - elem i - r / IZR N) <= 407 / 100 * (u * M)) by (apply Rabs_le; lra). lra.
  - pose proof (elem_near (i + 1) ltac:(lia)) as Ej. rewrite Eq in Ej. apply Rabs_le_inv in Ej. pose proof (Hinv 2%Z ltac:(lia) ltac:(lia)) as Hk.
    assert (Hs : Rabs (elem (i + 1) - elem i - r / IZR N) <= 610 / 100 * (u * M)) by (apply Rabs_le; lra). lra.
Qed.

(** The test of [islinspace], on real numbers. *)
Lemma test_ok i : (0 <= i < N)%Z -> Rabs (rnd (Rabs (rnd (elem (i + 1) - elem i)) - rnd (r / IZR N))) <= rnd (rnd (2 * u * rnd M) * 4).
Proof.
  intros Hi. pose proof (step_near i Hi) as Hs. pose proof (N_pos N HN) as N0. destruct r_near as (R0 & _ & _ & R2). pose proof u_small as (U0 & U1). pose proof M_pos as M0. assert (HuM : 0 < u * M) by (apply Rmult_lt_0_compat; lra).
  destruct h_small as (H0 & Hm & Hhu). set (D := r / IZR N) in *. assert (D0 : 0 <= D) by (unfold D, Rdiv; apply Rmult_le_pos; [lra|left; apply Rinv_0_lt_compat, N0]).
  set (s := elem (i + 1) - elem i) in *. set (t := u * M) in *.
  assert (UD : 0 <= u * D) by (apply Rmult_le_pos; lra).
  assert (s0 : 0 <= s).
  { unfold s, elem. destruct (Z.ltb_spec i N) as [_|Hx]; [|lia]. destruct (Z.ltb_spec (i + 1) N) as [Hx|Hx].
    - pose proof (lin_mono N HN a b Hab i (i + 1) ltac:(lia)). lra.
    - pose proof (lin_le N HN a b Fa Fb Hab i ltac:(lia)). lra. }
  assert (Hd0 : 0 <= rnd s) by (rewrite <- rnd_0; apply rnd_mono, s0). rewrite (Rabs_pos_eq _ Hd0).
  assert (Hsd : Rabs (s - D) <= 72 / 10 * t - 2 * (u * D)) by lra. apply Rabs_le_inv in Hsd.
  assert (Hus : u * s <= u * D + / 100 * t). { assert (u * (s - D) <= / 1000 * (72 / 10 * t)) by nra. nra. }
  pose proof (rnd_e s) as Es. fold u h in Es. rewrite (Rabs_pos_eq s s0) in Es. apply Rabs_le_inv in Es.
  pose proof (rnd_e D) as Ed. fold u h in Ed. rewrite (Rabs_pos_eq D D0) in Ed. apply Rabs_le_inv in Ed.
  assert (Hg : Rabs (rnd s - rnd D) <= 73 / 10 * t) by (apply Rabs_le; lra).
  pose proof (rnd_e (rnd s - rnd D)) as Eg. fold u h in Eg. assert (Hug : u * Rabs (rnd s - rnd D) <= / 1000 * (73 / 10 * t)) by (apply Rmult_le_compat; try lra; apply Rabs_pos).
  assert (Hl : Rabs (rnd (rnd s - rnd D)) <= 75 / 10 * t). { replace (rnd (rnd s - rnd D)) with ((rnd (rnd s - rnd D) - (rnd s - rnd D)) + (rnd s - rnd D)) by ring. eapply Rle_trans; [apply Rabs_triang|]. lra. }
  eapply Rle_trans; [exact Hl|].
  pose proof (rnd_e M) as E1. fold u h in E1. rewrite (Rabs_pos_eq M) in E1 by lra. fold t in E1. apply Rabs_le_inv in E1.
  assert (HtM : t <= / 1000 * M) by (apply Rmult_le_compat_r; lra).
  assert (Hm1 : 998 / 1000 * M <= rnd M <= 1002 / 1000 * M) by lra.
  set (y := 2 * u * rnd M). assert (Hy : 2 * (998 / 1000 * t) <= y <= 2 * (1002 / 1000 * t)). { unfold y, t. split; nra. }
  pose proof (rnd_e y) as E2. fold u h in E2. rewrite (Rabs_pos_eq y) in E2 by lra. apply Rabs_le_inv in E2. assert (Huy : u * y <= / 1000 * (2 * (1002 / 1000 * t))) by (apply Rmult_le_compat; lra).
  assert (Hy2 : 198 / 100 * t <= rnd y <= 202 / 100 * t) by lra.
  pose proof (rnd_e (rnd y * 4)) as E3. fold u h in E3. rewrite (Rabs_pos_eq (rnd y * 4)) in E3 by lra. apply Rabs_le_inv in E3. assert (Huy2 : u * (rnd y * 4) <= / 1000 * (202 / 100 * t * 4)) by (apply Rmult_le_compat; lra).
  lra.
Qed.
End Step.

(** ** in double precision *)
Lemma no_adjacent_all {A} (p : A -> A -> bool) l : (forall k x y, nth_error l k = Some x -> nth_error l (S k) = Some y -> p x y = false) -> no_adjacent p l = true.
Proof.
  induction l as [|a l IH]; intros Hp; [reflexivity|]. destruct l as [|b l]; [reflexivity|]. cbn [no_adjacent]. rewrite (Hp 0%nat a b eq_refl eq_refl). cbn [negb andb]. apply IH. intros k x y Hx Hy. exact (Hp (S k) x y Hx Hy).
Qed.
Lemma test_f64 n (x y a z : f64) : (1 <= n <= 2 ^ 50)%Z -> is_finite x = true -> is_finite y = true -> is_finite a = true -> is_finite z = true ->
  Rabs (val x) <= bpow radix2 900 -> Rabs (val y) <= bpow radix2 900 -> Rabs (val a) <= bpow radix2 900 -> Rabs (val z) <= bpow radix2 900 ->
  Rabs (rnd (Rabs (rnd (val y - val x)) - rnd (rnd (val z - val a) / IZR n))) <= rnd (rnd (2 * bpow radix2 (-53) * rnd (Rabs (val a) + Rabs (val z))) * 4) ->
  fltb (fmul (fmul f_eps (fadd (fabs a) (fabs z))) (f_of_Z 4)) (fabs (fsub (fabs (fsub y x)) (fdiv (fsub z a) (f_of_Z n)))) = false.
Proof.
  intros Hn Fx Fy Fa Fz Bx By Ba Bz Ht.
  assert (HN : 1 <= IZR n) by (apply IZR_le; apply Hn).
  destruct (f_of_Z_exact n) as [EN FN]; [clear - Hn; lia|]. destruct (f_of_Z_exact 4) as [E4 F4]; [discriminate|]. destruct f_eps_val as [Ee Fe].
  destruct (sub_finite 900 y x ltac:(split; discriminate) Fy Fx By Bx) as (Es & Fs & Bs). destruct (sub_finite 900 z a ltac:(split; discriminate) Fz Fa Bz Ba) as (Ew & Fw & Bw).
  change (900 + 1)%Z with 901%Z in Bs, Bw.
  assert (Hdiv : Rabs (val (fsub z a) / IZR n) <= bpow radix2 901).
  { unfold Rdiv. rewrite Rabs_mult. assert (Hi : 0 < / IZR n <= 1) by (split; [apply Rinv_0_lt_compat; lra|rewrite <- Rinv_1; apply Rinv_le; lra]).
    rewrite (Rabs_pos_eq (/ IZR n)) by lra. apply Rle_trans with (Rabs (val (fsub z a)) * 1); [apply Rmult_le_compat_l; [apply Rabs_pos|lra]|]. rewrite Rmult_1_r. exact Bw. }
  destruct (fdiv_val (fsub z a) (f_of_Z n) Fw) as [Ed Fd]; [rewrite EN; lra|rewrite EN; apply (rnd_lt_max _ 901); [discriminate|exact Hdiv|discriminate]|].
  rewrite EN in Ed. assert (Bd : Rabs (val (fdiv (fsub z a) (f_of_Z n))) <= bpow radix2 901) by (rewrite Ed; apply rnd_le; [discriminate|exact Hdiv]).
  destruct (fabs_val (fsub y x)) as [Eas Fas]. rewrite Fs in Fas.
  destruct (sub_finite 901 (fabs (fsub y x)) (fdiv (fsub z a) (f_of_Z n)) ltac:(split; discriminate) Fas Fd ltac:(rewrite Eas, Rabs_Rabsolu; exact Bs) Bd) as (Et & Ft & _).
  destruct (fabs_val a) as [Eaa Faa]. destruct (fabs_val z) as [Eaz Faz]. rewrite Fa in Faa. rewrite Fz in Faz.
  set (M := Rabs (val a) + Rabs (val z)) in *. assert (BM : Rabs M <= bpow radix2 901).
  { change 901%Z with (900 + 1)%Z. rewrite bpow_double. unfold M. rewrite Rabs_pos_eq by (pose proof (Rabs_pos (val a)); pose proof (Rabs_pos (val z)); lra). lra. }
  destruct (fadd_val (fabs a) (fabs z) Faa Faz) as [EM FM]; [rewrite Eaa, Eaz; apply (rnd_lt_max _ 901); [discriminate|exact BM|discriminate]|].
  rewrite Eaa, Eaz in EM. fold M in EM. assert (BrM : Rabs (rnd M) <= bpow radix2 901) by (apply rnd_le; [discriminate|exact BM]).
  assert (Hu : 0 < u53 <= / 1000000) by apply u53_small.
  assert (Bp : Rabs (2 * u53 * rnd M) <= bpow radix2 901).
  { rewrite Rabs_mult, (Rabs_pos_eq (2 * u53)) by lra. apply Rle_trans with (1 * Rabs (rnd M)); [apply Rmult_le_compat_r; [apply Rabs_pos|lra]|]. rewrite Rmult_1_l. exact BrM. }
  destruct (fmul_val f_eps (fadd (fabs a) (fabs z)) Fe FM) as [Ep Fp]; [rewrite Ee, EM; apply (rnd_lt_max _ 901); [discriminate|exact Bp|discriminate]|].
  rewrite Ee, EM in Ep. assert (Brp : Rabs (rnd (2 * u53 * rnd M)) <= bpow radix2 901) by (apply rnd_le; [discriminate|exact Bp]).
  assert (Bq : Rabs (rnd (2 * u53 * rnd M) * 4) <= bpow radix2 903).
  { change 903%Z with (901 + 1 + 1)%Z. rewrite !bpow_double, Rabs_mult, (Rabs_pos_eq 4) by lra. lra. }
  destruct (fmul_val (fmul f_eps (fadd (fabs a) (fabs z))) (f_of_Z 4) Fp F4) as [Eq Fq]; [rewrite Ep, E4; apply (rnd_lt_max _ 903); [discriminate|exact Bq|discriminate]|].
  rewrite Ep, E4 in Eq. unfold fltb. rewrite Bltb_correct; [|exact Fq|rewrite (proj2 (fabs_val _)); exact Ft].
  apply Rlt_bool_false. rewrite (proj1 (fabs_val _)), Et, Eas, Es, Ed, Ew, Eq. exact Ht.
Qed.

(** The elements of [out] along [dim] at the position [ix] of the other dimensions. *)
Definition along (out : darr f64) (dim num : Z) (ix : Dim -> Z) : list f64 := map (fun i => dv out (at_pos ix dim (Z.of_nat i))) (seq 0 (Z.to_nat num)).

Lemma elem_val (a b : f64) num i : is_finite a = true -> is_finite b = true -> Rabs (rnd (val b - val a)) < bpow radix2 1024 -> (2 <= num <= 2 ^ 50 + 1)%Z -> (0 <= i < num)%Z ->
  val (linspace_at a b num i) = elem (num - 1) (val a) (val b) i.
Proof.
  intros Fa Fb Hr Hn Hi. unfold elem. destruct (Z.ltb_spec i (num - 1)) as [Hl|Hl]; [apply (at_val a b num i Fa Fb Hr Hn); lia|]. replace i with (num - 1)%Z by lia. rewrite at_last. reflexivity.
Qed.
Lemma list_accepted (a b : f64) num : is_finite a = true -> is_finite b = true -> val a < val b -> Rabs (val a) <= bpow radix2 900 -> Rabs (val b) <= bpow radix2 900 ->
  bpow radix2 (-900) <= Rabs (val a) + Rabs (val b) -> (2 <= num <= 2 ^ 50 + 1)%Z ->
  islinspace_f64 (map (fun i => linspace_at a b num (Z.of_nat i)) (seq 0 (Z.to_nat num))) = true.
Proof.
  intros Fa Fb Hab Ba Bb HM Hn. set (x := linspace_at a b num). set (l := map (fun i => x (Z.of_nat i)) (seq 0 (Z.to_nat num))).
  assert (Hr : Rabs (rnd (val b - val a)) < bpow radix2 1024).
  { apply (rnd_lt_max _ 901); [lia| |lia]. change 901%Z with (900 + 1)%Z. rewrite bpow_double. apply Rabs_le_inv in Ba, Bb. apply Rabs_le. lra. }
  pose proof (at_spaced a b num Fa Fb Hr Hn) as (S1 & S2 & S3 & S4 & _). fold x in S1, S2, S3, S4.
  assert (Bx : forall i, (0 <= i < num)%Z -> Rabs (val (x i)) <= bpow radix2 900).
  { intros i Hi. destruct (S4 i i ltac:(lia) ltac:(lia)) as (Hs & _). destruct (Hs ltac:(lra)) as (Hs1 & Hs2). eapply Rle_trans; [apply (between_abs (val a) (val b)); left; lra|]. apply Rmax_lub; assumption. }
  assert (Hll : length l = Z.to_nat num) by (unfold l; rewrite map_length, seq_length; reflexivity).
  assert (Hnth : forall k v, nth_error l k = Some v -> (k < Z.to_nat num)%nat /\ v = x (Z.of_nat k)).
  { intros k v Hk. assert (Hlt : (k < length l)%nat) by (apply nth_error_Some; congruence). rewrite Hll in Hlt. split; [exact Hlt|]. unfold l in Hk. rewrite nth_error_map, (nth_error_nth' _ 0%nat) in Hk by (rewrite seq_length; exact Hlt). rewrite seq_nth in Hk by exact Hlt. cbn [option_map Nat.add] in Hk. congruence. }
  destruct l as [|a0 [|a1 l']] eqn:El; [cbn [length] in Hll; lia|cbn [length] in Hll; lia|]. rewrite <- El in *.
  destruct (Hnth 0%nat a0) as (_ & E0); [rewrite El; reflexivity|]. change (x (Z.of_nat 0)) with (x 0%Z) in E0.
  assert (Elast : last l a0 = b). { assert (Hlast : nth_error l (length l - 1) = Some (last l a0)) by (apply last_nth; rewrite El; discriminate). apply Hnth in Hlast. destruct Hlast as (_ & ->). rewrite Hll. replace (Z.of_nat (Z.to_nat num - 1)) with (num - 1)%Z by lia. exact S3. }
  assert (Fa0 : is_finite a0 = true) by (rewrite E0; apply S1; lia). assert (Va0 : val a0 = val a) by (rewrite E0; exact S2).
  unfold islinspace_f64. rewrite El. rewrite <- El. rewrite Elast.
  assert (Hle : fleb b a0 = false). { unfold fleb. rewrite Bleb_correct by assumption. apply Rle_bool_false. rewrite Va0. exact Hab. } rewrite Hle.
  apply no_adjacent_all. intros k v w Hv Hw. apply Hnth in Hv, Hw. destruct Hv as (Hk & ->). destruct Hw as (Hk' & ->).
  unfold lin_epsilon, lin_delta. rewrite Elast, Hll. replace (Z.of_nat (Z.to_nat num) - 1)%Z with (num - 1)%Z by lia. replace (Z.of_nat (S k)) with (Z.of_nat k + 1)%Z by lia.
  apply test_f64; try assumption; try (apply S1; lia); try (apply Bx; lia); try lia; [rewrite Va0; exact Ba|]. rewrite Va0. unfold x. rewrite !elem_val by (try assumption; lia).
  apply test_ok; try apply val_fmt; try lra; try lia.
Qed.

(** C59: [islinspace] accepts what [linspace] makes of rising end points that are not extremely large or small. *)
Theorem C59_accepted p (start stop : darr f64) dim num : own p start -> own p stop -> ~ In dim (keys p) -> dim <> InvalidDim -> (2 <= num <= 2 ^ 50 + 1)%Z ->
  exists out, linspace true true true false start stop dim num = Ok out /\
    forall ix, is_finite (dv start ix) = true -> is_finite (dv stop ix) = true -> val (dv start ix) < val (dv stop ix) ->
      Rabs (val (dv start ix)) <= bpow radix2 900 -> Rabs (val (dv stop ix)) <= bpow radix2 900 -> bpow radix2 (-900) <= Rabs (val (dv start ix)) + Rabs (val (dv stop ix)) ->
      islinspace_f64 (along out dim num ix) = true.
Proof.
  intros Oa Ob Hd Hi Hn. destruct (linspace_ok p start stop dim num Oa Ob Hd Hi ltac:(lia)) as (out & Eo & _ & Ev). exists out. split; [exact Eo|].
  intros ix Fa Fb Hab Ba Bb HM. unfold along. rewrite (map_ext _ _ (fun i => Ev ix (Z.of_nat i))). apply list_accepted; assumption.
Qed.

(** C59: extremely small end points, the result is not accepted. *)
Theorem C59_accepted_small_refuted : exists a b : f64, is_finite a = true /\ is_finite b = true /\ fltb a b = true /\
  match linspace true true true false (scalar a) (scalar b) dim_x 3 with Ok out => islinspace_f64 (along out dim_x 3 (fun _ => 0%Z)) = false | _ => False end.
Proof. exists (f_of_Z 0), (f_make 3 (-1074)). vm_compute. repeat split. Qed.
(** C59: falling end points, the result is not accepted. *)
Theorem C59_accepted_falling_refuted : exists a b : f64, is_finite a = true /\ is_finite b = true /\ fltb b a = true /\
  match linspace true true true false (scalar a) (scalar b) dim_x 3 with Ok out => islinspace_f64 (along out dim_x 3 (fun _ => 0%Z)) = false | _ => False end.
Proof. exists (f_of_Z 2), (f_of_Z 0). vm_compute. repeat split. Qed.
(** The hypotheses hold for 0.1 (rounded), 0.9 (rounded) in 7 elements, where not all steps are equal. *)
Theorem C59_accepted_case : let a := fdiv (f_of_Z 1) (f_of_Z 10) in let b := fdiv (f_of_Z 9) (f_of_Z 10) in
  match linspace true true true false (scalar a) (scalar b) dim_x 7 with
  | Ok out => let l := along out dim_x 7 (fun _ => 0%Z) in islinspace_f64 l = true /\ map (fun i => Beqb (fsub (nth (S i) l a) (nth i l a)) (fsub (nth 1 l a) (nth 0 l a))) (seq 0 6) = [true; false; false; false; false; false]
  | _ => False end.
Proof. vm_compute. split; reflexivity. Qed.

(** ** histogram with edges from [linspace] *)
From Coq Require Import Sorted.
From Verif Require Import Lookup_Model Lookup_Props Histogram_Model Histogram_Props Arr.
Lemma along_sorted (x : Z -> f64) (num : Z) : (forall i j, (0 <= i <= j)%Z -> (j < num)%Z -> fleb (x i) (x j) = true) ->
  StronglySorted (fun a b => fleb a b = true) (map (fun i => x (Z.of_nat i)) (seq 0 (Z.to_nat num))).
Proof.
  intros Hx. assert (Hg : forall n s, (Z.of_nat (s + n) <= Z.max 0 num)%Z -> StronglySorted (fun a b => fleb a b = true) (map (fun i => x (Z.of_nat i)) (seq s n))).
  { induction n as [|n IH]; intros s Hs; cbn [seq map]; [constructor|]. constructor; [apply IH; lia|]. apply Forall_forall. intros y Hy. apply in_map_iff in Hy. destruct Hy as (k & <- & Hk). apply in_seq in Hk. apply Hx; lia. }
  apply Hg. lia.
Qed.
(** C59: with edges made by [linspace], whose bins are not too narrow, every event is in the histogram bin whose edges it lies between, whichever way the bin is found. *)
Theorem C59_histogram {W} (zero : W) add (events : list (f64 * W)) p (start stop : darr f64) dim num : own p start -> own p stop -> ~ In dim (keys p) -> dim <> InvalidDim -> (2 <= num <= 2 ^ 40)%Z ->
  exists out, linspace true true true false start stop dim num = Ok out /\
    forall ix, let a := dv start ix in let b := dv stop ix in is_finite a = true -> is_finite b = true ->
      Rabs (val a) <= bpow radix2 900 -> Rabs (val b) <= bpow radix2 900 -> bpow radix2 (-900) <= val b - val a <= bpow radix2 900 ->
      96 * bpow radix2 (-53) * (IZR (num - 1) * IZR (num - 1)) * (Rabs (val a) + Rabs (val b)) <= val b - val a ->
      exists h, hist_f64 zero add (along out dim num ix) events = Ok h /\ zlen h = (num - 1)%Z /\
        forall i, (0 <= i < num - 1)%Z -> znth zero h i = fold_left add (map snd (filter (fun e => fleb (dv out (at_pos ix dim i)) (fst e) && fltb (fst e) (dv out (at_pos ix dim (i + 1)))) events)) zero.
Proof.
  intros Oa Ob Hd Hi Hn. destruct (linspace_ok p start stop dim num Oa Ob Hd Hi ltac:(lia)) as (out & Eo & _ & Ev). exists out. split; [exact Eo|].
  intros ix a b Fa Fb Ba Bb Hw Hwide. set (x := linspace_at a b num). assert (Ex : forall i, dv out (at_pos ix dim i) = x i) by (intros i; apply Ev).
  assert (Hab : val a < val b) by (pose proof (bpow_gt_0 radix2 (-900)); lra).
  assert (Hr : Rabs (rnd (val b - val a)) < bpow radix2 1024). { apply (rnd_lt_max _ 900); [lia| |lia]. apply Rabs_le. pose proof (bpow_gt_0 radix2 900). lra. }
  pose proof (at_spaced a b num Fa Fb Hr ltac:(lia)) as (S1 & S2 & S3 & S4 & _). fold x in S1, S2, S3, S4.
  assert (Bx : forall i, (0 <= i < num)%Z -> Rabs (val (x i)) <= bpow radix2 900).
  { intros i Hi'. destruct (S4 i i ltac:(lia) ltac:(lia)) as (Hs & _). destruct (Hs ltac:(lra)) as (Hs1 & Hs2). eapply Rle_trans; [apply (between_abs (val a) (val b)); left; lra|]. apply Rmax_lub; assumption. }
  assert (El : along out dim num ix = map (fun i => x (Z.of_nat i)) (seq 0 (Z.to_nat num))) by (unfold along; apply map_ext; intros i; apply Ex).
  set (l := along out dim num ix) in *. assert (Hll : length l = Z.to_nat num) by (rewrite El, map_length, seq_length; reflexivity).
  assert (Hnth : forall k, (0 <= k < num)%Z -> vget l k = Ok (x k)).
  { intros k Hk. replace k with (Z.of_nat (Z.to_nat k)) at 1 by lia. apply nth_vget. rewrite El, nth_error_map, (nth_error_nth' _ 0%nat) by (rewrite seq_length; lia). rewrite seq_nth by lia. cbn [option_map Nat.add]. rewrite Z2Nat.id by lia. reflexivity. }
  assert (Hz : forall d k, (0 <= k < num)%Z -> znth d l k = x k).
  { intros d k Hk. pose proof (Hnth k Hk) as Hv. apply vget_nth in Hv. unfold znth. destruct (Z.ltb_spec k 0) as [Hk0|_]; [lia|]. apply nth_error_nth. apply Hv. }
  assert (Hsorted : StronglySorted (fun a b => fleb a b = true) l).
  { rewrite El. apply along_sorted. intros i j Hij Hj. unfold fleb. rewrite Bleb_correct by (apply S1; lia). apply Rle_bool_true. destruct (S4 i j Hij Hj) as (Hs & _). apply Hs. lra. }
  destruct (C24_histogram_f64 zero add l events (num - 1) Hsorted ltac:(lia) ltac:(lia)) as (h & Eh & Lh & Vh).
  - intros _. split; [lia|]. split.
    + unfold bounded. rewrite El. apply Forall_forall. intros e He. apply in_map_iff in He. destruct He as (k & <- & Hk). apply in_seq in Hk. split; [apply S1; lia|apply Bx; lia].
    + unfold wide_enough, vals. rewrite !Hnth by lia. rewrite S2, S3. split; assumption.
  - exists h. split; [exact Eh|]. split; [exact Lh|]. intros i Hi'. rewrite (Vh i Hi'). f_equal. f_equal. apply filter_ext. intros e. unfold in_bin_f64. rewrite !Hz by lia. rewrite !Ex. reflexivity.
Qed.

(** The hypotheses hold for the edges 0, 0.5, ..., 2 and the events are counted in the right bins. *)
Theorem C59_histogram_case : is_finite (f_of_Z 0) = true /\ is_finite (f_of_Z 2) = true /\ Rabs (val (f_of_Z 0)) <= bpow radix2 900 /\ Rabs (val (f_of_Z 2)) <= bpow radix2 900 /\
  bpow radix2 (-900) <= val (f_of_Z 2) - val (f_of_Z 0) <= bpow radix2 900 /\
  96 * bpow radix2 (-53) * (IZR (5 - 1) * IZR (5 - 1)) * (Rabs (val (f_of_Z 0)) + Rabs (val (f_of_Z 2))) <= val (f_of_Z 2) - val (f_of_Z 0) /\
  match linspace true true true false (scalar (f_of_Z 0)) (scalar (f_of_Z 2)) dim_x 5 with
  | Ok out => hist_f64 0%Z Z.add (along out dim_x 5 (fun _ => 0%Z)) [(f_of_Z 0, 1%Z); (f_of_Z 1, 10%Z); (f_make 3 (-2), 100%Z); (f_make 7 (-2), 1000%Z); (f_of_Z 2, 5%Z); (f_of_Z (-1), 7%Z)] = Ok [1; 100; 10; 1000]%Z
  | _ => False end.
Proof.
  destruct (f_of_Z_exact 0 ltac:(discriminate)) as [E0 F0]. destruct (f_of_Z_exact 2 ltac:(discriminate)) as [E2 F2]. rewrite E0, E2.
  split; [exact F0|]. split; [exact F2|]. rewrite Rabs_R0, (Rabs_pos_eq 2) by lra. assert (Hb : 2 <= bpow radix2 900) by (change 2 with (bpow radix2 1); apply bpow_le; lia).
  assert (Hs : bpow radix2 (-900) <= 2) by (change 2 with (bpow radix2 1); apply bpow_le; lia). pose proof (bpow_gt_0 radix2 900). destruct u53_small as (U0 & U1).
  repeat split; try lra. change (5 - 1)%Z with 4%Z. lra.
Qed.

Print Assumptions C59_accepted.
Print Assumptions C59_accepted_small_refuted.
Print Assumptions C59_accepted_falling_refuted.
Print Assumptions C59_accepted_case.
Print Assumptions C59_histogram.
Print Assumptions C59_histogram_case.
