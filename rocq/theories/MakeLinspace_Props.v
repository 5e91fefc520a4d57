(** C59: [linspace] gives evenly spaced, sorted values between its end points. *)
From Coq Require Import Reals Lra Lia.
From Flocq Require Import Core BinarySingleNaN Relative Plus_error.
From Verif Require Import Base Float Arr Map_Model Dims_Model Dims_Spec Dims_Proofs View_Model View_Spec View_Proofs Accumulate_Model MakeLinspace_Model.
Local Open Scope R_scope.
Notation val := (B2R (prec := 53) (emax := 1024)).

Notation fmt := (generic_format radix2 fexp64).
Lemma rnd_mono x y : x <= y -> rnd x <= rnd y.
Proof. apply round_le; typeclasses eauto. Qed.
Lemma rnd_id x : fmt x -> rnd x = x.
Proof. apply round_generic. typeclasses eauto. Qed.
Lemma rnd_fmt x : fmt (rnd x).
Proof. apply generic_format_round; typeclasses eauto. Qed.
Lemma rnd_0 : rnd 0 = 0.
Proof. apply round_0. typeclasses eauto. Qed.
Lemma rnd_opp x : rnd (- x) = - rnd x.
Proof. apply round_NE_opp. Qed.
Lemma val_fmt (x : f64) : fmt (val x).
Proof. apply (generic_format_B2R 53 1024 x). Qed.

(** ** the computation on real numbers *)
Section Real.
Variable N : Z.
Hypothesis HN : (1 <= N <= 2 ^ 50)%Z.
Definition frac (i : Z) : R := rnd (IZR i / IZR N).
Definition prod (a b : R) (i : Z) : R := rnd (frac i * rnd (b - a)).
Definition lin (a b : R) (i : Z) : R := rnd (a + prod a b i).
Lemma N_pos : 0 < IZR N. Proof. apply IZR_lt. lia. Qed.
Lemma frac_mono i j : (i <= j)%Z -> frac i <= frac j.
Proof. intros Hij. apply rnd_mono. unfold Rdiv. apply Rmult_le_compat_r; [left; apply Rinv_0_lt_compat, N_pos|apply IZR_le, Hij]. Qed.
Lemma frac_0 : frac 0 = 0.
Proof. unfold frac. replace (IZR 0 / IZR N) with 0 by (pose proof N_pos; field; lra). apply rnd_0. Qed.
Lemma frac_pos i : (0 <= i)%Z -> 0 <= frac i.
Proof. intros Hi. rewrite <- frac_0. apply frac_mono, Hi. Qed.
Lemma fmt_below_1 : fmt (1 - bpow radix2 (-50)).
Proof.
  apply generic_format_FLT. exists (Defs.Float radix2 (2 ^ 50 - 1) (-50)); cbn [Fnum Fexp]; [|vm_compute; reflexivity|lia].
  unfold F2R. cbn [Fnum Fexp]. rewrite minus_IZR. replace (IZR (2 ^ 50)) with (bpow radix2 50) by reflexivity. rewrite Rmult_minus_distr_r, <- bpow_plus. replace (bpow radix2 (50 + -50)) with 1 by reflexivity. ring.
Qed.
Lemma frac_below i : (i <= N - 1)%Z -> frac i <= 1 - bpow radix2 (-50).
Proof.
  intros Hi. rewrite <- (rnd_id _ fmt_below_1). apply rnd_mono. pose proof N_pos as HNp. assert (Hd : bpow radix2 (-50) <= / IZR N).
  { change (-50)%Z with (- (50))%Z. rewrite bpow_opp. apply Rinv_le; [exact HNp|]. replace (bpow radix2 50) with (IZR (2 ^ 50)) by reflexivity. apply IZR_le. lia. }
  assert (Hq : IZR i / IZR N <= (IZR N - 1) / IZR N). { unfold Rdiv. apply Rmult_le_compat_r; [left; apply Rinv_0_lt_compat, HNp|]. rewrite <- minus_IZR. apply IZR_le, Hi. }
  eapply Rle_trans; [exact Hq|]. replace ((IZR N - 1) / IZR N) with (1 - / IZR N) by (field; lra). lra.
Qed.

Section Up.
Variables a b : R.
Hypothesis Fa : fmt a.
Hypothesis Fb : fmt b.
Hypothesis Hab : a <= b.
Lemma range_pos : 0 <= rnd (b - a).
Proof. rewrite <- rnd_0. apply rnd_mono. lra. Qed.
Lemma prod_mono i j : (i <= j)%Z -> prod a b i <= prod a b j.
Proof. intros Hij. apply rnd_mono. apply Rmult_le_compat_r; [apply range_pos|apply frac_mono, Hij]. Qed.
Lemma prod_0 : prod a b 0 = 0.
Proof. unfold prod. rewrite frac_0, Rmult_0_l. apply rnd_0. Qed.
Lemma prod_pos i : (0 <= i)%Z -> 0 <= prod a b i.
Proof. intros Hi. rewrite <- prod_0. apply prod_mono, Hi. Qed.
Lemma prod_le_range i : (i <= N - 1)%Z -> prod a b i <= rnd (b - a).
Proof.
  intros Hi. rewrite <- (rnd_id (rnd (b - a)) (rnd_fmt _)). apply rnd_mono. pose proof (frac_below i Hi). pose proof range_pos. pose proof (bpow_gt_0 radix2 (-50)). apply Rle_trans with (1 * rnd (b - a)); [apply Rmult_le_compat_r; lra|lra].
Qed.
(** Although the difference may be rounded up. *)
Lemma prod_le i : (0 <= i <= N - 1)%Z -> prod a b i <= b - a.
Proof.
  intros [Hi0 Hi]. destruct (Rle_lt_dec (rnd (b - a)) (b - a)) as [Hr|Hr]; [eapply Rle_trans; [apply prod_le_range, Hi|exact Hr]|].
  destruct (Rle_lt_dec (b - a) (bpow radix2 (-1021))) as [Hs|Hs].
  - exfalso. assert (Hf : fmt (b - a)). { unfold Rminus. apply FLT_format_plus_small; [typeclasses eauto|exact Fb|apply generic_format_opp, Fa|]. change (b + - a) with (b - a). rewrite Rabs_pos_eq by lra. exact Hs. }
    rewrite (rnd_id _ Hf) in Hr. lra.
  - set (r := rnd (b - a)) in *. assert (Hlt : prod a b i < r).
    { unfold prod. fold r. pose proof (frac_below i Hi) as Hf. pose proof (frac_pos i Hi0) as Hp. pose proof (rnd_half (frac i * r)) as He. apply Rabs_le_inv in He.
      assert (Hr0 : 0 < r) by (pose proof (bpow_gt_0 radix2 (-1021)); lra).
      assert (Hx : 0 <= frac i * r) by (apply Rmult_le_pos; lra). rewrite (Rabs_pos_eq _ Hx) in He.
      assert (Hxr : frac i * r <= (1 - bpow radix2 (-50)) * r) by (apply Rmult_le_compat_r; lra).
      assert (E50 : bpow radix2 (-50) = 4 * bpow radix2 (-52)). { change (-50)%Z with (2 + -52)%Z. rewrite bpow_plus. reflexivity. }
      assert (E74 : bpow radix2 (-1074) = / 2 * bpow radix2 (-52) * bpow radix2 (-1021)).
      { replace (/ 2) with (bpow radix2 (-1)) by reflexivity. rewrite <- !bpow_plus. reflexivity. }
      rewrite E50 in *. set (e := bpow radix2 (-52)) in *. assert (He0 : 0 < e) by apply bpow_gt_0. set (x := frac i * r) in *.
      assert (Her : e * bpow radix2 (-1021) <= e * r) by (apply Rmult_le_compat_l; lra).
      assert (Her0 : 0 < e * r) by (apply Rmult_lt_0_compat; lra).
      assert (Hex : e * x <= e * r) by (apply Rmult_le_compat_l; [lra|]; nra).
      nra. }
    destruct (Rle_lt_dec (prod a b i) (b - a)) as [Hp|Hp]; [exact Hp|]. exfalso. apply (Rlt_not_le _ _ Hlt). unfold r. apply round_le_generic; [typeclasses eauto|typeclasses eauto|apply rnd_fmt|lra].
Qed.
Lemma lin_mono i j : (i <= j)%Z -> lin a b i <= lin a b j.
Proof. intros Hij. apply rnd_mono. apply Rplus_le_compat_l, prod_mono, Hij. Qed.
Lemma lin_0 : lin a b 0 = a.
Proof. unfold lin. rewrite prod_0, Rplus_0_r. apply rnd_id, Fa. Qed.
Lemma lin_ge i : (0 <= i)%Z -> a <= lin a b i.
Proof. intros Hi. apply Rle_trans with (lin a b 0); [rewrite lin_0; lra|]. apply lin_mono, Hi. Qed.
Lemma lin_le i : (0 <= i <= N - 1)%Z -> lin a b i <= b.
Proof. intros Hi. apply Rle_trans with (rnd b); [|rewrite (rnd_id b Fb); lra]. apply rnd_mono. pose proof (prod_le i Hi). lra. Qed.
End Up.

(** Exchanging the signs of the end points. *)
Lemma prod_opp a b i : prod (- a) (- b) i = - prod a b i.
Proof. unfold prod. replace (- b - - a) with (- (b - a)) by ring. rewrite rnd_opp, <- Ropp_mult_distr_r. apply rnd_opp. Qed.
Lemma lin_opp a b i : lin (- a) (- b) i = - lin a b i.
Proof. unfold lin. rewrite prod_opp, <- Ropp_plus_distr. apply rnd_opp. Qed.

(** The value is close to the exact one. *)
Definition exact (a b : R) (i : Z) : R := a + IZR i / IZR N * (b - a).
Lemma lin_err a b i : (0 <= i <= N - 1)%Z -> Rabs (lin a b i - exact a b i) <= bpow radix2 (-49) * (Rabs a + Rabs b) + bpow radix2 (-1072).
Proof.
  intros [Hi0 Hi]. pose proof N_pos as HNp. set (q := IZR i / IZR N). set (w := b - a).
  assert (Hq0 : 0 <= q). { unfold q, Rdiv. apply Rmult_le_pos; [apply IZR_le, Hi0|left; apply Rinv_0_lt_compat, HNp]. }
  assert (Hq1 : q <= 1). { unfold q, Rdiv. apply Rmult_le_reg_r with (IZR N); [exact HNp|]. rewrite Rmult_assoc, Rinv_l, Rmult_1_r, Rmult_1_l by lra. apply IZR_le. lia. }
  pose proof (frac_below i Hi) as Hf1. pose proof (frac_pos i Hi0) as Hf0. pose proof (bpow_gt_0 radix2 (-50)) as H50.
  pose proof (rnd_half q) as Ef. fold (frac i) in Ef. change (rnd q) with (frac i) in Ef.
  pose proof (rnd_half w) as Er. set (r := rnd w) in *.
  pose proof (rnd_half (frac i * r)) as Ep. change (rnd (frac i * r)) with (prod a b i) in Ep.
  pose proof (rnd_half (a + prod a b i)) as Ex. change (rnd (a + prod a b i)) with (lin a b i) in Ex.
  set (f := frac i) in *. set (p := prod a b i) in *. set (x := lin a b i) in *.
  assert (Hw : Rabs w <= Rabs a + Rabs b). { unfold w, Rminus. eapply Rle_trans; [apply Rabs_triang|]. rewrite Rabs_Ropp. lra. }
  set (u := / 2 * bpow radix2 (-52)) in *. set (h := / 2 * bpow radix2 (-1074)) in *.
  assert (Hh0 : 0 < h) by (unfold h; pose proof (bpow_gt_0 radix2 (-1074)); lra).
  assert (Hu0 : 0 < u) by (unfold u; pose proof (bpow_gt_0 radix2 (-52)); lra).
  assert (Hu1 : u <= / 1000). { unfold u. assert (bpow radix2 (-52) <= bpow radix2 (-10)) by (apply bpow_le; lia). replace (bpow radix2 (-10)) with (/ 1024) in * by reflexivity. lra. }
  assert (Hhu : h <= u * u). { unfold h, u. replace (/ 2) with (bpow radix2 (-1)) by reflexivity. rewrite <- !bpow_plus. apply bpow_le. lia. }
  replace (bpow radix2 (-49)) with (16 * u) by (unfold u; change (-49)%Z with (3 + -52)%Z; rewrite bpow_plus; replace (bpow radix2 3) with 8 by reflexivity; lra).
  replace (bpow radix2 (-1072)) with (8 * h) by (unfold h; change (-1072)%Z with (2 + -1074)%Z; rewrite bpow_plus; replace (bpow radix2 2) with 4 by reflexivity; lra).
  assert (Ha0 := Rabs_pos a). assert (Hb0 := Rabs_pos b). assert (Hw0 := Rabs_pos w).
  rewrite (Rabs_pos_eq q Hq0) in Ef.
  assert (Ef' : Rabs (f - q) <= 2 * u) by nra.
  assert (Hr : Rabs r <= 2 * Rabs w + h). { replace r with ((r - w) + w) by ring. eapply Rle_trans; [apply Rabs_triang|]. nra. }
  assert (Hfr : Rabs (f * r) <= Rabs r). { rewrite Rabs_mult, (Rabs_pos_eq f Hf0). pose proof (Rabs_pos r). nra. }
  assert (Efr : Rabs (f * r - q * w) <= 3 * u * Rabs w + 2 * u * h + u * Rabs w + h).
  { replace (f * r - q * w) with ((f - q) * w + f * (r - w)) by ring. eapply Rle_trans; [apply Rabs_triang|]. rewrite !Rabs_mult, (Rabs_pos_eq f Hf0). pose proof (Rabs_pos (r - w)). pose proof (Rabs_pos (f - q)).
    assert (Rabs (f - q) * Rabs w <= 2 * u * Rabs w) by (apply Rmult_le_compat_r; lra). assert (f * Rabs (r - w) <= 1 * Rabs (r - w)) by (apply Rmult_le_compat_r; lra). nra. }
  assert (Ep' : Rabs (p - f * r) <= 2 * u * Rabs w + u * h + h). { eapply Rle_trans; [exact Ep|]. assert (u * Rabs (f * r) <= u * (2 * Rabs w + h)) by (apply Rmult_le_compat_l; lra). nra. }
  assert (Hp : Rabs p <= 3 * Rabs w + 3 * h). { replace p with ((p - f * r) + f * r) by ring. eapply Rle_trans; [apply Rabs_triang|]. assert (u * Rabs w <= / 1000 * Rabs w) by (apply Rmult_le_compat_r; lra). nra. }
  assert (Ex' : Rabs (x - (a + p)) <= u * Rabs a + 3 * u * Rabs w + 3 * u * h + h).
  { eapply Rle_trans; [exact Ex|]. assert (Rabs (a + p) <= Rabs a + (3 * Rabs w + 3 * h)) by (eapply Rle_trans; [apply Rabs_triang|]; lra). assert (u * Rabs (a + p) <= u * (Rabs a + (3 * Rabs w + 3 * h))) by (apply Rmult_le_compat_l; lra). nra. }
  unfold exact. fold q. fold w. replace (x - (a + q * w)) with ((x - (a + p)) + ((p - f * r) + (f * r - q * w))) by ring.
  eapply Rle_trans; [apply Rabs_triang|]. eapply Rle_trans; [apply Rplus_le_compat_l, Rabs_triang|].
  assert (u * Rabs w <= u * (Rabs a + Rabs b)) by (apply Rmult_le_compat_l; lra). assert (u * h <= / 1000 * h) by (apply Rmult_le_compat_r; lra).
  assert (0 <= u * Rabs b) by (apply Rmult_le_pos; lra). assert (0 <= u * Rabs a) by (apply Rmult_le_pos; lra). lra.
Qed.
End Real.

(** ** the elements computed in double precision *)
Lemma rnd_of_big a b i num : (2 <= num <= 2 ^ 50 + 1)%Z -> (0 <= i < num - 1)%Z -> Rabs (rnd (b - a)) < bpow radix2 1024 ->
  Rabs (frac (num - 1) i) < bpow radix2 1024 /\ Rabs (prod (num - 1) a b i) < bpow radix2 1024.
Proof.
  intros Hn Hi Hr. assert (HN : (1 <= num - 1 <= 2 ^ 50)%Z) by lia. pose proof (frac_below _ HN i ltac:(lia)) as Hf. pose proof (frac_pos _ HN i ltac:(lia)) as Hf0. pose proof (bpow_gt_0 radix2 (-50)) as H50.
  assert (Hf1 : Rabs (frac (num - 1) i) <= 1) by (rewrite Rabs_pos_eq; lra). split.
  - eapply Rle_lt_trans; [exact Hf1|]. change 1 with (bpow radix2 0). apply bpow_lt. lia.
  - eapply Rle_lt_trans; [|exact Hr]. apply abs_round_le_generic; [typeclasses eauto|typeclasses eauto|apply generic_format_abs, rnd_fmt|]. rewrite Rabs_mult. pose proof (Rabs_pos (rnd (b - a))). nra.
Qed.
Lemma between_abs a b x : (a <= x <= b \/ b <= x <= a) -> Rabs x <= Rmax (Rabs a) (Rabs b).
Proof. intros Hx. pose proof (Rmax_l (Rabs a) (Rabs b)). pose proof (Rmax_r (Rabs a) (Rabs b)). unfold Rabs in *. repeat destruct Rcase_abs; lra. Qed.
Lemma val_big (x : f64) : Rabs (val x) < bpow radix2 1024. Proof. apply abs_B2R_lt_emax. Qed.

Lemma lin_between N a b i : (1 <= N <= 2 ^ 50)%Z -> fmt a -> fmt b -> (0 <= i <= N - 1)%Z -> a <= lin N a b i <= b \/ b <= lin N a b i <= a.
Proof.
  intros HN Fa Fb Hi. destruct (Rle_lt_dec a b) as [Hab|Hab].
  - left. split; [apply (lin_ge N HN a b Fa Hab); lia|apply (lin_le N HN a b Fa Fb Hab i Hi)].
  - right. assert (Hab' : - a <= - b) by lra. pose proof (generic_format_opp _ _ _ Fa) as Fa'. pose proof (generic_format_opp _ _ _ Fb) as Fb'.
    pose proof (lin_ge N HN _ _ Fa' Hab' i ltac:(lia)) as Hg. pose proof (lin_le N HN _ _ Fa' Fb' Hab' i Hi) as Hl. rewrite lin_opp in Hg, Hl. lra.
Qed.
Lemma at_val (a b : f64) num i : is_finite a = true -> is_finite b = true -> Rabs (rnd (val b - val a)) < bpow radix2 1024 -> (2 <= num <= 2 ^ 50 + 1)%Z -> (0 <= i < num - 1)%Z ->
  val (linspace_at a b num i) = lin (num - 1) (val a) (val b) i /\ is_finite (linspace_at a b num i) = true.
Proof.
  intros Fa Fb Hr Hn Hi. unfold linspace_at. rewrite (proj2 (Z.ltb_lt i (num - 1))) by lia.
  destruct (rnd_of_big _ _ i num Hn Hi Hr) as (Hf & Hp). destruct (f_of_Z_exact i) as [Ei Fi]; [lia|]. destruct (f_of_Z_exact (num - 1)) as [En Fn]; [lia|].
  destruct (fsub_val b a Fb Fa Hr) as [Es Fs].
  destruct (fdiv_val (f_of_Z i) (f_of_Z (num - 1))) as [Ed Fd]; [exact Fi|rewrite En; apply IZR_neq; lia|rewrite Ei, En; exact Hf|]. rewrite Ei, En in Ed.
  destruct (fmul_val (fdiv (f_of_Z i) (f_of_Z (num - 1))) (fsub b a)) as [Em Fm]; [exact Fd|exact Fs|rewrite Ed, Es; exact Hp|]. rewrite Ed, Es in Em.
  destruct (fadd_val a (fmul (fdiv (f_of_Z i) (f_of_Z (num - 1))) (fsub b a))) as [Ea Fx]; [exact Fa|exact Fm| |].
  - rewrite Em. change (Rabs (lin (num - 1) (val a) (val b) i) < bpow radix2 1024). eapply Rle_lt_trans; [apply between_abs, lin_between; [lia|apply val_fmt|apply val_fmt|lia]|]. apply Rmax_lub_lt; apply val_big.
  - rewrite Ea, Em. split; [reflexivity|exact Fx].
Qed.

(** ** specification *)
(** The exact position of element [i] of [num]. *)
Definition evenly (a b : R) (num i : Z) : R := a + IZR i / IZR (num - 1) * (b - a).
(** [x] has values [a], ..., [b] in this order, none outside, each close to the exact one. *)
Definition spaced (a b : f64) (num : Z) (x : Z -> f64) : Prop :=
  (forall i, (0 <= i < num)%Z -> is_finite (x i) = true) /\ val (x 0%Z) = val a /\ x (num - 1)%Z = b /\
  (forall i j, (0 <= i <= j)%Z -> (j < num)%Z -> (val a <= val b -> val a <= val (x i) <= val (x j) /\ val (x j) <= val b) /\ (val b <= val a -> val b <= val (x j) <= val (x i) /\ val (x i) <= val a)) /\
  (forall i, (0 <= i < num)%Z -> Rabs (val (x i) - evenly (val a) (val b) num i) <= bpow radix2 (-49) * (Rabs (val a) + Rabs (val b)) + bpow radix2 (-1072)).

Lemma at_last a b num : linspace_at a b num (num - 1) = b.
Proof. unfold linspace_at. rewrite Z.ltb_irrefl. reflexivity. Qed.
Lemma at_spaced (a b : f64) num : is_finite a = true -> is_finite b = true -> Rabs (rnd (val b - val a)) < bpow radix2 1024 -> (2 <= num <= 2 ^ 50 + 1)%Z -> spaced a b num (linspace_at a b num).
Proof.
  intros Fa Fb Hr Hn. assert (HN : (1 <= num - 1 <= 2 ^ 50)%Z) by lia. pose proof (val_fmt a) as Ga. pose proof (val_fmt b) as Gb.
  assert (Hcase : forall i, (0 <= i < num)%Z -> (0 <= i < num - 1)%Z \/ i = (num - 1)%Z) by (intros; lia).
  assert (Hup : forall i j, (0 <= i <= j)%Z -> (j < num)%Z -> val a <= val b -> val a <= val (linspace_at a b num i) <= val (linspace_at a b num j) /\ val (linspace_at a b num j) <= val b).
  { intros i j Hij Hj Hab. destruct (Hcase j ltac:(lia)) as [Hj'|Hj'].
    - destruct (at_val a b num i Fa Fb Hr Hn ltac:(lia)) as [Ei _]. destruct (at_val a b num j Fa Fb Hr Hn Hj') as [Ej _]. rewrite Ei, Ej. repeat split; [apply lin_ge|apply lin_mono|apply lin_le]; try assumption; lia.
    - subst j. rewrite at_last. destruct (Hcase i ltac:(lia)) as [Hi'|Hi']; [|subst i; rewrite at_last; lra].
      destruct (at_val a b num i Fa Fb Hr Hn Hi') as [Ei _]. rewrite Ei. split; [split; [apply lin_ge|apply lin_le]; try assumption; lia|lra]. }
  assert (Hdn : forall i j, (0 <= i <= j)%Z -> (j < num)%Z -> val b <= val a -> val b <= val (linspace_at a b num j) <= val (linspace_at a b num i) /\ val (linspace_at a b num i) <= val a).
  { intros i j Hij Hj Hba. assert (Hab : - val a <= - val b) by lra. pose proof (generic_format_opp _ _ _ Ga) as Ga'. pose proof (generic_format_opp _ _ _ Gb) as Gb'.
    assert (Hl : forall k, (0 <= k < num - 1)%Z -> val b <= lin (num - 1) (val a) (val b) k <= val a).
    { intros k Hk. pose proof (lin_ge _ HN _ _ Ga' Hab k ltac:(lia)) as Hg. pose proof (lin_le _ HN _ _ Ga' Gb' Hab k ltac:(lia)) as Hx. rewrite lin_opp in Hg, Hx. lra. }
    destruct (Hcase j ltac:(lia)) as [Hj'|Hj'].
    - destruct (at_val a b num i Fa Fb Hr Hn ltac:(lia)) as [Ei _]. destruct (at_val a b num j Fa Fb Hr Hn Hj') as [Ej _]. rewrite Ei, Ej.
      pose proof (lin_mono _ HN _ _ Hab i j ltac:(lia)) as Hm. rewrite !lin_opp in Hm. pose proof (Hl i ltac:(lia)). pose proof (Hl j ltac:(lia)). lra.
    - subst j. rewrite at_last. destruct (Hcase i ltac:(lia)) as [Hi'|Hi']; [|subst i; rewrite at_last; lra].
      destruct (at_val a b num i Fa Fb Hr Hn Hi') as [Ei _]. rewrite Ei. pose proof (Hl i Hi'). lra. }
  split; [|split; [|split; [apply at_last|split; [intros i j Hij Hj; split; intros Hab; [apply Hup|apply Hdn]; assumption|]]]].
  - intros i Hi. destruct (Hcase i Hi) as [Hi'|Hi']; [apply (at_val a b num i Fa Fb Hr Hn Hi')|subst i; rewrite at_last; exact Fb].
  - destruct (at_val a b num 0 Fa Fb Hr Hn ltac:(lia)) as [E0 _]. rewrite E0. unfold lin, prod. rewrite (frac_0 _ HN), Rmult_0_l, rnd_0, Rplus_0_r. apply rnd_id, Ga.
  - intros i Hi. destruct (Hcase i Hi) as [Hi'|Hi'].
    + destruct (at_val a b num i Fa Fb Hr Hn Hi') as [Ei _]. rewrite Ei. apply (lin_err (num - 1) HN). lia.
    + subst i. rewrite at_last. unfold evenly. unfold Rdiv. rewrite Rinv_r by (apply IZR_neq; lia). replace (val b - (val a + 1 * (val b - val a))) with 0 by ring. rewrite Rabs_R0.
      pose proof (bpow_gt_0 radix2 (-49)). pose proof (bpow_gt_0 radix2 (-1072)). pose proof (Rabs_pos (val a)). pose proof (Rabs_pos (val b)). nra.
Qed.

(** The value at an index only depends on the coordinates of the variable's own dimensions. *)
Definition own (p : list (Z * Z)) (x : darr f64) : Prop := dd x = mk p /\ forall e e', (forall d, In d (keys p) -> e d = e' d) -> dv x e = dv x e'.
(** Index [ix] moved to position [i] of [dim]. *)
Definition at_pos (ix : Dim -> Z) (dim i : Z) : Dim -> Z := fun d => if Z.eqb d dim then i else ix d.

Lemma dims_eqb_refl d : dims_eqb d d = true.
Proof. unfold dims_eqb. assert (Hl : forall l, list_eqb l l = true). { induction l as [|x l IH]; [reflexivity|]. cbn [list_eqb]. rewrite Z.eqb_refl, IH. reflexivity. } rewrite !Hl. reflexivity. Qed.
Lemma linspace_ok p start stop dim num : own p start -> own p stop -> ~ In dim (keys p) -> dim <> InvalidDim -> (1 <= num)%Z ->
  exists out, linspace true true true false start stop dim num = Ok out /\ dd out = mk (p ++ [(dim, num)]) /\
    forall ix i, dv out (at_pos ix dim i) = linspace_at (dv start ix) (dv stop ix) num i.
Proof.
  intros (Da & Oa) (Db & Ob) Hd Hi Hn. unfold linspace. rewrite Da, Db, dims_eqb_refl. cbn [negb]. rewrite add_inner_mk by (try assumption; lia).
  destruct (mem dim (keys p)) eqn:Em; [exfalso; apply Hd, mem_In, Em|]. cbn [bind]. rewrite (proj2 (Z.leb_gt num 0)) by lia.
  eexists. split; [reflexivity|]. split; [reflexivity|]. intros ix i. cbn [dv].
  assert (Hp : forall d, In d (keys p) -> at_pos ix dim i d = ix d). { intros d Hin. unfold at_pos. destruct (Z.eqb_spec d dim) as [E|_]; [subst d; contradiction|reflexivity]. }
  rewrite (Oa _ _ Hp), (Ob _ _ Hp). unfold at_pos at 1. rewrite Z.eqb_refl. reflexivity.
Qed.

(** C59: the output has a new inner dimension; along it the values are evenly spaced from start to stop. *)
Theorem C59_linspace (p : list (Z * Z)) (start stop : darr f64) dim num : own p start -> own p stop -> ~ In dim (keys p) -> dim <> InvalidDim -> (2 <= num <= 2 ^ 50 + 1)%Z ->
  (forall ix, is_finite (dv start ix) = true /\ is_finite (dv stop ix) = true /\ Rabs (rnd (val (dv stop ix) - val (dv start ix))) < bpow radix2 1024) ->
  exists out, linspace true true true false start stop dim num = Ok out /\ dd out = mk (p ++ [(dim, num)]) /\
    forall ix, spaced (dv start ix) (dv stop ix) num (fun i => dv out (at_pos ix dim i)).
Proof.
  intros Oa Ob Hd Hi Hn Hf. destruct (linspace_ok p start stop dim num Oa Ob Hd Hi ltac:(lia)) as (out & Eo & Ed & Ev). exists out. split; [exact Eo|]. split; [exact Ed|].
  intros ix. destruct (Hf ix) as (Fa & Fb & Hr). pose proof (at_spaced _ _ num Fa Fb Hr Hn) as (S1 & S2 & S3 & S4 & S5).
  split; [|split; [|split; [|split]]]; intros; rewrite ?Ev in *; auto.
Qed.

(** C59: what is refused, and nothing else: different dims, units or dtypes, other dtypes, variances, an existing or invalid dimension, no elements. *)
Theorem C59_linspace_errors p q start stop dim num (us ds fl va : bool) : own p start -> own q stop ->
  (exists out, linspace us ds fl va start stop dim num = Ok out) <->
  (p = q /\ us = true /\ ds = true /\ fl = true /\ va = false /\ ~ In dim (keys p) /\ dim <> InvalidDim /\ (1 <= num)%Z).
Proof.
  intros Oa Ob. split.
  - intros (out & E). unfold linspace in E. destruct Oa as (Da & _). destruct Ob as (Db & _). rewrite Da, Db in E.
    destruct (dims_eqb (mk p) (mk q)) eqn:Eq; cbn [negb] in E; [|discriminate]. destruct us, ds, fl, va; cbn [negb] in E; try discriminate.
    assert (Epq : p = q).
    { unfold dims_eqb, shape, labels, mk in Eq. cbn [m_keys m_values] in Eq. apply andb_prop in Eq. destruct Eq as [Ee Ek].
      assert (Hl : forall l m, list_eqb l m = true -> l = m). { induction l as [|x l IH]; intros [|y m]; cbn [list_eqb]; intros Hx; try discriminate; [reflexivity|]. apply andb_prop in Hx. destruct Hx as [Hx Hy]. apply Z.eqb_eq in Hx. subst y. f_equal. apply IH, Hy. }
      apply Hl in Ee. apply Hl in Ek. unfold keys, extents in *. clear - Ee Ek. revert q Ee Ek. induction p as [|[k n] p IH]; intros [|[k' n'] q]; cbn [map fst snd]; intros Ee Ek; try discriminate; [reflexivity|]. injection Ee as -> Ee. injection Ek as -> Ek. f_equal. apply IH; assumption. }
    subst q. destruct (Z.eq_dec dim InvalidDim) as [Ei|Ni]; [subst dim; discriminate|].
    destruct (Z_lt_le_dec num 0) as [Hneg|Hpos].
    { exfalso. unfold add_inner, valid_dim, valid_extent in E. destruct (Z.eqb_spec dim InvalidDim); [contradiction|]. cbn [bind] in E. rewrite (proj2 (Z.ltb_lt num 0)) in E by lia. discriminate. }
    rewrite add_inner_mk in E by (try assumption; lia). destruct (mem dim (keys p)) eqn:Em; cbn [bind] in E; [discriminate|].
    destruct (num <=? 0)%Z eqn:En; [discriminate|]. apply Z.leb_gt in En. repeat split; try assumption; try lia. intros Hin. apply mem_In in Hin. congruence.
  - intros (E & -> & -> & -> & -> & Hd & Hi & Hn). subst q. destruct (linspace_ok p start stop dim num Oa Ob Hd Hi Hn) as (out & Eo & _). exists out. exact Eo.
Qed.

(** ** counterexamples *)
Definition scalar (x : f64) : darr f64 := mkd (mk []) (fun _ => x).
Definition dim_x : Z := 10.
Lemma scalar_own x : own [] (scalar x). Proof. split; [reflexivity|]. intros. reflexivity. Qed.
Definition line (r : res (darr f64)) (num : Z) : list f64 := match r with Ok out => map (fun i => dv out (fun _ => Z.of_nat i)) (seq 0 (Z.to_nat num)) | _ => [] end.

(** C59: finite end points far apart, every element but the last is NaN or infinite. *)
Theorem C59_linspace_overflow_refuted : exists a b : f64, is_finite a = true /\ is_finite b = true /\ fltb a b = true /\
  map (fun x => (is_nan x, is_finite x)) (line (linspace true true true false (scalar a) (scalar b) dim_x 3) 3) = [(true, false); (false, false); (false, true)].
Proof. exists (f_make (-1) 1023), (f_make 1 1023). vm_compute. repeat split. Qed.
(** C59: a single element is the end, not the start. *)
Theorem C59_linspace_single_refuted : exists a b : f64, fltb a b = true /\ line (linspace true true true false (scalar a) (scalar b) dim_x 1) 1 = [b].
Proof. exists (f_of_Z 0), (f_of_Z 1). split; reflexivity. Qed.
(** C59: different end points, but the elements are not different. *)
Theorem C59_linspace_strict_refuted : exists a b : f64, fltb a b = true /\
  let l := line (linspace true true true false (scalar a) (scalar b) dim_x 4) 4 in map (fun i => fltb (nth i l a) (nth (S i) l a)) [0; 1; 2]%nat = [false; true; false].
Proof. exists (f_of_Z (2 ^ 52)), (f_of_Z (2 ^ 52 + 1)). vm_compute. repeat split. Qed.

(** ** non-trivial case *)
Definition dim_y : Z := 20.
Definition case_start : darr f64 := mkd (mk [(dim_y, 2%Z)]) (fun _ => f_of_Z 1).
Definition case_stop : darr f64 := mkd (mk [(dim_y, 2%Z)]) (fun ix => if Z.eqb (ix dim_y) 0 then f_of_Z 3 else f_of_Z (-3)).
(** The hypotheses of C59 hold for a rising and a falling line; all values are exact here. *)
Theorem C59_linspace_case : own [(dim_y, 2%Z)] case_start /\ own [(dim_y, 2%Z)] case_stop /\ ~ In dim_x (keys [(dim_y, 2%Z)]) /\
  (forall ix, is_finite (dv case_start ix) = true /\ is_finite (dv case_stop ix) = true /\ Rabs (rnd (val (dv case_stop ix) - val (dv case_start ix))) < bpow radix2 1024) /\
  match linspace true true true false case_start case_stop dim_x 5 with
  | Ok out => dd out = mk [(dim_y, 2%Z); (dim_x, 5%Z)] /\ forall y, In y [0; 1]%Z ->
      map (fun i => Beqb (fmul (f_of_Z 2) (dv out (at_pos (fun _ => y) dim_x i))) (f_of_Z (if Z.eqb y 0 then 2 + i else 2 - 2 * i))) [0; 1; 2; 3; 4]%Z = [true; true; true; true; true]
  | _ => False end.
Proof.
  split; [split; [reflexivity|intros; reflexivity]|]. split; [split; [reflexivity|]; intros e e' He; cbn [dv case_stop]; rewrite (He dim_y) by (left; reflexivity); reflexivity|].
  split; [vm_compute; intuition discriminate|]. split.
  - intros ix. cbn [dv case_start case_stop]. destruct (f_of_Z_exact 1 ltac:(lia)) as [E1 F1]. destruct (f_of_Z_exact 3 ltac:(lia)) as [E3 F3]. destruct (f_of_Z_exact (-3) ltac:(lia)) as [E4 F4].
    destruct (Z.eqb (ix dim_y) 0); (split; [exact F1|]; split; [assumption|]; rewrite E1, ?E3, ?E4, <- minus_IZR; apply bpow_1024_big; lia).
  - split; [reflexivity|]. intros y [<-|[<-|[]]]; vm_compute; reflexivity.
Qed.

Print Assumptions C59_linspace.
Print Assumptions C59_linspace_errors.
Print Assumptions C59_linspace_overflow_refuted.
Print Assumptions C59_linspace_single_refuted.
Print Assumptions C59_linspace_strict_refuted.
Print Assumptions C59_linspace_case.
