(** C60: midpoints are the correctly rounded centres of neighbours. *)
From Coq Require Import Reals Lra Lia Psatz.
From Flocq Require Import Core BinarySingleNaN Relative Plus_error.
From Verif Require Import Base Float Arr Map_Model Dims_Model Dims_Spec Dims_Proofs View_Model View_Spec View_Proofs Accumulate_Model Numeric_Model Lookup_Proofs Linspace_Proofs Subspan_Spec Subspan_Proofs GroupBy_Reduce_Proofs SizedDict_Proofs BinMeta_Proofs MakeLinspace_Props Midpoints_Model.

(** ** integers *)
(** C60: for all integers the result exists (nothing overflows), is the centre of both, and if the centre is no integer, the neighbour of it on
    the side of [a]. *)
Theorem C60_int bits a b : 1 < bits -> in_range bits a = true -> in_range bits b = true ->
  exists m, midpoint_int bits a b = Ok m /\ Z.min a b <= m <= Z.max a b /\ (a <= b -> 2 * m <= a + b <= 2 * m + 1) /\ (b <= a -> 2 * m - 1 <= a + b <= 2 * m).
Proof.
  intros Hb Ra Rb. unfold in_range in Ra, Rb. apply andb_prop in Ra, Rb. destruct Ra as [Ra1 Ra2], Rb as [Rb1 Rb2]. apply Z.leb_le in Ra1, Rb1. apply Z.ltb_lt in Ra2, Rb2.
  assert (Hp : 2 ^ bits = 2 * 2 ^ (bits - 1)) by (rewrite <- Z.pow_succ_r by lia; f_equal; lia). assert (Hq : 0 < 2 ^ (bits - 1)) by (apply Z.pow_pos_nonneg; lia).
  set (Q := 2 ^ (bits - 1)) in *.
  assert (Hd : forall x y, x <= y -> - Q <= x -> y < Q -> to_unsigned bits (to_unsigned bits y - to_unsigned bits x) = y - x).
  { intros x y Hxy Hx Hy. unfold to_unsigned. rewrite <- Zminus_mod. apply Z.mod_small. lia. }
  assert (Hv : forall z, - Q <= z < Q -> int_val bits z = Ok z).
  { intros z Hz. unfold int_val, in_range. fold Q. rewrite (proj2 (Z.leb_le _ _)) by lia. rewrite (proj2 (Z.ltb_lt _ _)) by lia. reflexivity. }
  unfold midpoint_int. destruct (Z.gtb_spec a b) as [Hab|Hab].
  - rewrite (Hd b a) by lia. pose proof (Z.div_mod (a - b) 2 ltac:(lia)). pose proof (Z.mod_pos_bound (a - b) 2 ltac:(lia)). rewrite Hv by lia. cbn [bind]. rewrite Hv by lia. cbn [bind]. rewrite Hv by lia. eexists. split; [reflexivity|]. lia.
  - rewrite (Hd a b) by lia. pose proof (Z.div_mod (b - a) 2 ltac:(lia)). pose proof (Z.mod_pos_bound (b - a) 2 ltac:(lia)). rewrite Hv by lia. cbn [bind]. rewrite Hv by lia. cbn [bind]. rewrite Hv by lia. eexists. split; [reflexivity|]. lia.
Qed.

(** ** doubles *)
Local Open Scope R_scope.
Notation val := (B2R (prec := 53) (emax := 1024)).
Notation fmt := (generic_format radix2 fexp64).
(** Halving is exact in the normal range. *)
Lemma rnd_half_exact x : bpow radix2 (-1021) <= Rabs x -> rnd (x / 2) = rnd x / 2.
Proof.
  intros Hx. assert (Hx0 : x <> 0) by (intros ->; rewrite Rabs_R0 in Hx; pose proof (bpow_gt_0 radix2 (-1021)); lra).
  replace (x / 2) with (x * bpow radix2 (-1)) by reflexivity.
  assert (Hm : (-1020 <= mag radix2 x)%Z). { apply (mag_ge_bpow radix2 x (-1020)). exact Hx. }
  unfold round, scaled_mantissa, cexp. rewrite mag_mult_bpow by exact Hx0. set (e := mag radix2 x : Z) in *.
  assert (E1 : fexp64 (e + -1)%Z = (e - 54)%Z) by (unfold FLT_exp; lia). assert (E2 : fexp64 e = (e - 53)%Z) by (unfold FLT_exp; lia). rewrite E1, E2.
  rewrite Rmult_assoc, <- bpow_plus. replace (-1 + - (e - 54))%Z with (- (e - 53))%Z by ring. unfold F2R. cbn [Fnum Fexp]. unfold Rdiv. replace (/ 2) with (bpow radix2 (-1)) by reflexivity. rewrite Rmult_assoc, <- bpow_plus. f_equal. f_equal. ring.
Qed.
Lemma fmt_half x : fmt x -> bpow radix2 (-1021) <= Rabs x -> rnd (x / 2) = x / 2.
Proof. intros Fx Hx. rewrite rnd_half_exact by exact Hx. rewrite rnd_id by exact Fx. reflexivity. Qed.
(** Large numbers are integers. *)
Lemma fmt_large_int x : fmt x -> bpow radix2 53 <= Rabs x -> exists k, x = IZR k.
Proof.
  intros Fx Hx. assert (Hm : (54 <= mag radix2 x)%Z) by (apply mag_ge_bpow; exact Hx). rewrite Fx. unfold F2R. cbn [Fnum Fexp]. assert (Ec : cexp radix2 fexp64 x = (mag radix2 x - 53)%Z) by (unfold cexp, FLT_exp; lia).
  exists (Ztrunc (scaled_mantissa radix2 fexp64 x) * 2 ^ (cexp radix2 fexp64 x))%Z. rewrite mult_IZR. f_equal. rewrite <- IZR_Zpower by lia. reflexivity.
Qed.
(** A large number does not change by adding a small one. *)
Lemma rnd_absorb B d : fmt B -> bpow radix2 60 <= Rabs B -> Rabs d <= / 4 -> rnd (B + d) = B.
Proof.
  intros FB HB Hd. assert (He : Rabs (rnd (B + d) - (B + d)) <= Rabs (B - (B + d))) by (apply (round_N_pt radix2 fexp64 (fun z => negb (Z.even z)) (B + d)); exact FB).
  replace (B - (B + d)) with (- d) in He by ring. rewrite Rabs_Ropp in He.
  assert (Hn : Rabs (rnd (B + d) - B) <= / 2). { replace (rnd (B + d) - B) with ((rnd (B + d) - (B + d)) + d) by ring. eapply Rle_trans; [apply Rabs_triang|]. lra. }
  assert (H60 : bpow radix2 53 + 1 <= bpow radix2 60). { assert (E : bpow radix2 60 = 128 * bpow radix2 53) by (change 60%Z with (7 + 53)%Z; rewrite bpow_plus; reflexivity). assert (1 <= bpow radix2 53) by (change 1 with (bpow radix2 0); apply bpow_le; lia). lra. }
  destruct (fmt_large_int B FB) as (k & Ek); [pose proof (bpow_gt_0 radix2 53); lra|]. destruct (fmt_large_int (rnd (B + d)) (rnd_fmt _)) as (j & Ej).
  { assert (Rabs B <= Rabs (rnd (B + d)) + / 2). { replace B with (rnd (B + d) - (rnd (B + d) - B)) at 1 by ring. unfold Rminus at 1. eapply Rle_trans; [apply Rabs_triang|]. rewrite Rabs_Ropp. lra. } lra. }
  rewrite Ej, Ek in Hn |- *. rewrite <- minus_IZR, <- abs_IZR in Hn. f_equal. assert (Hlt : (Z.abs (j - k) < 1)%Z) by (apply lt_IZR; lra). lia.
Qed.

Lemma f_lo_val : val f_lo = bpow radix2 (-1021) /\ is_finite f_lo = true.
Proof.
  split; [|reflexivity]. unfold f_lo, f_make. pose proof (binary_normalize_correct 53 1024 _ _ mode_NE 1 (-1021) false) as C. cbv zeta in C.
  replace (F2R {| Fnum := 1; Fexp := -1021 |}) with (bpow radix2 (-1021)) in C by (unfold F2R; cbn [Fnum Fexp]; ring).
  assert (E : rnd (bpow radix2 (-1021)) = bpow radix2 (-1021)) by (apply round_generic; [typeclasses eauto|]; apply generic_format_bpow; vm_compute; discriminate).
  change (round radix2 (SpecFloat.fexp 53 1024) (round_mode mode_NE) (bpow radix2 (-1021))) with (rnd (bpow radix2 (-1021))) in C. rewrite E in C.
  rewrite Rlt_bool_true in C by (rewrite Rabs_pos_eq by apply bpow_ge_0; apply bpow_lt; reflexivity). exact (proj1 C).
Qed.
(** The largest finite number is twice [hi]. *)
Definition maxf : R := IZR (2 ^ 53 - 1) * bpow radix2 971.
Lemma fmt_scaled m e : (Z.abs m < 2 ^ 53)%Z -> (-1074 <= e)%Z -> fmt (IZR m * bpow radix2 e).
Proof. intros Hm He. apply generic_format_FLT. exists (Defs.Float radix2 m e); [reflexivity|exact Hm|exact He]. Qed.
Lemma maxf_lt : maxf < bpow radix2 1024.
Proof. unfold maxf. change 1024%Z with (53 + 971)%Z. rewrite bpow_plus. apply Rmult_lt_compat_r; [apply bpow_gt_0|]. replace (bpow radix2 53) with (IZR (2 ^ 53)) by reflexivity. apply IZR_lt. reflexivity. Qed.
Lemma hi_half : IZR (2 ^ 53 - 1) * bpow radix2 970 = maxf / 2.
Proof. unfold maxf. change 971%Z with (1 + 970)%Z. rewrite bpow_plus. replace (bpow radix2 1) with 2 by reflexivity. field. Qed.
Lemma f_hi_val : val f_hi = maxf / 2 /\ is_finite f_hi = true.
Proof.
  split; [|reflexivity]. rewrite <- hi_half. unfold f_hi, f_make. pose proof (binary_normalize_correct 53 1024 _ _ mode_NE (2 ^ 53 - 1) 970 false) as C. cbv zeta in C.
  change (F2R {| Fnum := 2 ^ 53 - 1; Fexp := 970 |}) with (IZR (2 ^ 53 - 1) * bpow radix2 970) in C.
  assert (E : rnd (IZR (2 ^ 53 - 1) * bpow radix2 970) = IZR (2 ^ 53 - 1) * bpow radix2 970) by (apply rnd_id, fmt_scaled; [reflexivity|discriminate]).
  change (round radix2 (SpecFloat.fexp 53 1024) (round_mode mode_NE) (IZR (2 ^ 53 - 1) * bpow radix2 970)) with (rnd (IZR (2 ^ 53 - 1) * bpow radix2 970)) in C. rewrite E in C.
  rewrite Rlt_bool_true in C; [exact (proj1 C)|]. rewrite Rabs_pos_eq by (apply Rmult_le_pos; [apply IZR_le; discriminate|apply bpow_ge_0]). rewrite hi_half. pose proof maxf_lt. pose proof (bpow_gt_0 radix2 1024). lra.
Qed.
Lemma val_max (x : f64) : Rabs (val x) <= maxf.
Proof. pose proof (abs_B2R_le_emax_minus_prec 53 1024 _ x) as Hx. eapply Rle_trans; [exact Hx|]. unfold maxf. right. change (1024 - 53)%Z with 971%Z. replace 1024%Z with (53 + 971)%Z by reflexivity. rewrite bpow_plus. rewrite minus_IZR. replace (IZR (2 ^ 53)) with (bpow radix2 53) by reflexivity. ring. Qed.
Lemma rnd_max x : Rabs x <= maxf -> Rabs (rnd x) < bpow radix2 1024.
Proof. intros Hx. eapply Rle_lt_trans; [|exact maxf_lt]. apply abs_round_le_generic; [typeclasses eauto|typeclasses eauto| |exact Hx]. apply fmt_scaled; [reflexivity|discriminate]. Qed.

(** C60: for all finite doubles the midpoint is the correctly rounded centre; no step overflows. *)
Theorem C60_f64 (a b : f64) : is_finite a = true -> is_finite b = true ->
  is_finite (midpoint_f64 a b) = true /\ val (midpoint_f64 a b) = rnd ((val a + val b) / 2) /\ Rmin (val a) (val b) <= val (midpoint_f64 a b) <= Rmax (val a) (val b).
Proof.
  intros Fa Fb.
  assert (Hmain : is_finite (midpoint_f64 a b) = true /\ val (midpoint_f64 a b) = rnd ((val a + val b) / 2)).
  { destruct f_lo_val as [El Fl]. destruct f_hi_val as [Eh Fh]. destruct (f_of_Z_exact 2 ltac:(discriminate)) as [E2 F2]. destruct (fabs_val a) as [Eaa Faa]. destruct (fabs_val b) as [Eab Fab]. rewrite Fa in Faa. rewrite Fb in Fab.
    pose proof (val_fmt a) as Ga. pose proof (val_fmt b) as Gb. pose proof (val_max a) as Ma. pose proof (val_max b) as Mb.
    assert (Hbig : bpow radix2 100 <= maxf / 2). { rewrite <- hi_half. replace (bpow radix2 100) with (1 * bpow radix2 100) by ring. apply Rmult_le_compat; [lra|apply bpow_ge_0|apply IZR_le; discriminate|apply bpow_le; lia]. }
    assert (H60 : bpow radix2 60 <= bpow radix2 100 / 2). { replace (bpow radix2 100 / 2) with (bpow radix2 99) by (change 99%Z with (100 + -1)%Z; rewrite bpow_plus; reflexivity). apply bpow_le. lia. }
    assert (Hlo : bpow radix2 (-1021) <= / 4). { replace (/ 4) with (bpow radix2 (-2)) by reflexivity. apply bpow_le. lia. } pose proof (bpow_gt_0 radix2 (-1021)) as Hlo0. assert (H60p : 1 <= bpow radix2 60) by (change 1 with (bpow radix2 0); apply bpow_le; lia).
    assert (Hdiv : forall x : f64, is_finite x = true -> bpow radix2 (-1021) <= Rabs (val x) -> val (fdiv x f_two) = val x / 2 /\ is_finite (fdiv x f_two) = true).
    { intros x Fx Hx. destruct (fdiv_val x f_two Fx) as [E F]; [unfold f_two; rewrite E2; lra| |].
      - unfold f_two. rewrite E2. apply rnd_max. unfold Rdiv. rewrite Rabs_mult, (Rabs_pos_eq (/ 2)) by lra. pose proof (val_max x). pose proof (Rabs_pos (val x)). lra.
      - split; [|exact F]. rewrite E. unfold f_two. rewrite E2. apply fmt_half; [apply val_fmt|exact Hx]. }
    assert (Habs : forall x y, Rabs (x + y) <= Rabs x + Rabs y) by (intros; apply Rabs_triang).
    assert (Hh : forall x, Rabs (x / 2) = Rabs x / 2) by (intros x; unfold Rdiv; rewrite Rabs_mult, (Rabs_pos_eq (/ 2)) by lra; reflexivity).
    unfold midpoint_f64, fleb, fltb. rewrite !Bleb_correct, !Bltb_correct by assumption. rewrite Eaa, Eab, El, Eh.
    destruct (Rle_bool_spec (Rabs (val a)) (maxf / 2)) as [Ha|Ha]; [destruct (Rle_bool_spec (Rabs (val b)) (maxf / 2)) as [Hb|Hb]|]; cbn [andb].
    - destruct (fadd_val a b Fa Fb) as [Es Fs]; [apply rnd_max; pose proof (Habs (val a) (val b)); lra|].
      assert (Hs : rnd (rnd (val a + val b) / 2) = rnd ((val a + val b) / 2)).
      { destruct (Rle_lt_dec (Rabs (val a + val b)) (bpow radix2 (-1021))) as [Hx|Hx].
        - rewrite (rnd_id (val a + val b)); [reflexivity|]. apply FLT_format_plus_small; [typeclasses eauto|exact Ga|exact Gb|exact Hx].
        - rewrite <- rnd_half_exact by lra. apply rnd_id, rnd_fmt. }
      destruct (fdiv_val (fadd a b) f_two Fs) as [Ed Fd]; [unfold f_two; rewrite E2; lra| |].
      + unfold f_two. rewrite E2, Es, Hs. apply rnd_max. rewrite Hh. pose proof (Habs (val a) (val b)). pose proof (Rabs_pos (val a + val b)). lra.
      + split; [exact Fd|]. rewrite Ed. unfold f_two. rewrite E2, Es. exact Hs.
    - assert (Hlob : bpow radix2 (-1021) <= Rabs (val b)) by lra. destruct (Hdiv b Fb Hlob) as [Eb' Fb'].
      destruct (Rlt_bool_spec (Rabs (val a)) (bpow radix2 (-1021))) as [Hs|Hs].
      + assert (Gb2 : fmt (val b / 2)) by (rewrite <- (fmt_half (val b) Gb Hlob); apply rnd_fmt). assert (B2 : bpow radix2 60 <= Rabs (val b / 2)) by (rewrite Hh; lra).
        assert (X1 : rnd (val a + val b / 2) = val b / 2) by (rewrite Rplus_comm; apply rnd_absorb; [exact Gb2|exact B2|lra]).
        assert (X2 : rnd ((val a + val b) / 2) = val b / 2) by (replace ((val a + val b) / 2) with (val b / 2 + val a / 2) by field; apply rnd_absorb; [exact Gb2|exact B2|rewrite Hh; pose proof (Rabs_pos (val a)); lra]).
        destruct (fadd_val a (fdiv b f_two) Fa Fb') as [Es Fs]; [rewrite Eb', X1, Hh; pose proof maxf_lt; pose proof (Rabs_pos (val b)); lra|]. split; [exact Fs|]. rewrite Es, Eb', X1, X2. reflexivity.
      + rewrite Rlt_bool_false by lra. destruct (Hdiv a Fa Hs) as [Ea' Fa']. assert (Hm : Rabs (val a / 2 + val b / 2) <= maxf) by (pose proof (Habs (val a / 2) (val b / 2)) as Ht; rewrite !Hh in Ht; lra).
        destruct (fadd_val (fdiv a f_two) (fdiv b f_two) Fa' Fb') as [Es Fs]; [rewrite Ea', Eb'; apply rnd_max, Hm|]. split; [exact Fs|]. rewrite Es, Ea', Eb'. f_equal. field.
    - assert (Hloa : bpow radix2 (-1021) <= Rabs (val a)) by lra. destruct (Hdiv a Fa Hloa) as [Ea' Fa']. rewrite (Rlt_bool_false (Rabs (val a))) by lra.
      destruct (Rlt_bool_spec (Rabs (val b)) (bpow radix2 (-1021))) as [Hs|Hs].
      + assert (Ga2 : fmt (val a / 2)) by (rewrite <- (fmt_half (val a) Ga Hloa); apply rnd_fmt). assert (A2 : bpow radix2 60 <= Rabs (val a / 2)) by (rewrite Hh; lra).
        assert (X1 : rnd (val a / 2 + val b) = val a / 2) by (apply rnd_absorb; [exact Ga2|exact A2|lra]).
        assert (X2 : rnd ((val a + val b) / 2) = val a / 2) by (replace ((val a + val b) / 2) with (val a / 2 + val b / 2) by field; apply rnd_absorb; [exact Ga2|exact A2|rewrite Hh; pose proof (Rabs_pos (val b)); lra]).
        destruct (fadd_val (fdiv a f_two) b Fa' Fb) as [Es Fs]; [rewrite Ea', X1, Hh; pose proof maxf_lt; pose proof (Rabs_pos (val a)); lra|]. split; [exact Fs|]. rewrite Es, Ea', X1, X2. reflexivity.
      + destruct (Hdiv b Fb Hs) as [Eb' Fb']. assert (Hm : Rabs (val a / 2 + val b / 2) <= maxf) by (pose proof (Habs (val a / 2) (val b / 2)) as Ht; rewrite !Hh in Ht; lra).
        destruct (fadd_val (fdiv a f_two) (fdiv b f_two) Fa' Fb') as [Es Fs]; [rewrite Ea', Eb'; apply rnd_max, Hm|]. split; [exact Fs|]. rewrite Es, Ea', Eb'. f_equal. field. }
  destruct Hmain as [Fm Em]. split; [exact Fm|]. split; [exact Em|]. rewrite Em.
  assert (Gmin : fmt (Rmin (val a) (val b))) by (unfold Rmin; destruct Rle_dec; apply val_fmt). assert (Gmax : fmt (Rmax (val a) (val b))) by (unfold Rmax; destruct Rle_dec; apply val_fmt).
  pose proof (Rmin_l (val a) (val b)). pose proof (Rmin_r (val a) (val b)). pose proof (Rmax_l (val a) (val b)). pose proof (Rmax_r (val a) (val b)).
  split; [rewrite <- (rnd_id _ Gmin)|rewrite <- (rnd_id _ Gmax)]; apply rnd_mono; lra.
Qed.

(** C60: infinities and NaN. *)
Lemma half_inf s : fdiv (B754_infinity s) f_two = B754_infinity s. Proof. destruct s; vm_compute; reflexivity. Qed.
Lemma half_nan : fdiv B754_nan f_two = B754_nan. Proof. vm_compute; reflexivity. Qed.
Lemma half_finite (x : f64) : is_finite x = true -> is_finite (fdiv x f_two) = true.
Proof.
  intros Fx. destruct (f_of_Z_exact 2 ltac:(discriminate)) as [E2 _]. destruct (fdiv_val x f_two Fx) as [_ F]; [unfold f_two; rewrite E2; lra| |exact F].
  unfold f_two. rewrite E2. apply rnd_max. unfold Rdiv. rewrite Rabs_mult, (Rabs_pos_eq (/ 2)) by lra. pose proof (val_max x). pose proof (Rabs_pos (val x)). lra.
Qed.
Lemma inf_plus s (x : f64) : is_finite x = true -> fadd (B754_infinity s) x = B754_infinity s /\ fadd x (B754_infinity s) = B754_infinity s.
Proof. destruct x; intros Fx; try discriminate; split; reflexivity. Qed.
Lemma inf_hi s : fleb (fabs (B754_infinity s)) f_hi = false /\ fltb (fabs (B754_infinity s)) f_lo = false. Proof. destruct s; vm_compute; split; reflexivity. Qed.
Lemma nan_hi : fleb (fabs B754_nan) f_hi = false /\ fltb (fabs B754_nan) f_lo = false. Proof. vm_compute; split; reflexivity. Qed.
Lemma nan_plus (x : f64) : fadd B754_nan x = B754_nan /\ fadd x B754_nan = B754_nan. Proof. destruct x; split; reflexivity. Qed.
Theorem C60_special (a b : f64) s : (is_nan a || is_nan b = true -> midpoint_f64 a b = B754_nan) /\
  (is_finite b = true -> midpoint_f64 (B754_infinity s) b = B754_infinity s) /\ (is_finite a = true -> midpoint_f64 a (B754_infinity s) = B754_infinity s) /\
  midpoint_f64 (B754_infinity s) (B754_infinity s) = B754_infinity s /\ midpoint_f64 (B754_infinity s) (B754_infinity (negb s)) = B754_nan.
Proof.
  destruct (inf_hi s) as [I1 I2]. destruct nan_hi as [N1 N2]. split; [|split; [|split; [|split]]].
  - intros Hn. apply orb_prop in Hn. destruct Hn as [Hn|Hn].
    + destruct a; try discriminate. unfold midpoint_f64. rewrite N1, N2, half_nan. cbn [andb]. destruct (fltb (fabs b) f_lo); apply nan_plus.
    + destruct b; try discriminate. unfold midpoint_f64. rewrite N1, N2, half_nan, andb_false_r. destruct (fltb (fabs a) f_lo); apply nan_plus.
  - intros Fb. unfold midpoint_f64. rewrite I1, I2, half_inf. cbn [andb]. rewrite (proj1 (inf_plus s b Fb)), (proj1 (inf_plus s _ (half_finite b Fb))). destruct (fltb (fabs b) f_lo); reflexivity.
  - intros Fa. unfold midpoint_f64. rewrite I1, I2, half_inf, andb_false_r. rewrite (proj2 (inf_plus s a Fa)), (proj2 (inf_plus s _ (half_finite a Fa))). destruct (fltb (fabs a) f_lo); reflexivity.
  - unfold midpoint_f64. rewrite I1, I2, half_inf. cbn [andb]. destruct s; reflexivity.
  - destruct (inf_hi (negb s)) as [J1 J2]. unfold midpoint_f64. rewrite I1, I2, J2, !half_inf. cbn [andb]. destruct s; reflexivity.
Qed.

Theorem C60_special_case : midpoint_f64 (B754_infinity true) f_hi = B754_infinity true /\ midpoint_f64 f_lo (B754_infinity false) = B754_infinity false /\
  midpoint_f64 (B754_infinity true) (B754_infinity false) = B754_nan /\ midpoint_f64 B754_nan f_two = B754_nan.
Proof. vm_compute. repeat split; reflexivity. Qed.

(** C60: midpoints do not fall if an argument rises, the midpoint of a number and itself is the number; for doubles the order of the
    arguments does not matter and negation can be moved out. *)
Theorem C60_int_laws bits a b a' b' : (1 < bits)%Z -> in_range bits a = true -> in_range bits b = true -> in_range bits a' = true -> in_range bits b' = true ->
  midpoint_int bits a a = Ok a /\
  ((a <= a')%Z -> (b <= b')%Z -> exists m m', midpoint_int bits a b = Ok m /\ midpoint_int bits a' b' = Ok m' /\ (m <= m')%Z).
Proof.
  intros Hb Ra Rb Ra' Rb'. split.
  - destruct (C60_int bits a a Hb Ra Ra) as (m & E & Hm & _). rewrite E. f_equal. lia.
  - intros La Lb. destruct (C60_int bits a b Hb Ra Rb) as (m & E & Hm & Hu & Hd). destruct (C60_int bits a' b' Hb Ra' Rb') as (m' & E' & Hm' & Hu' & Hd').
    exists m, m'. split; [exact E|]. split; [exact E'|].
    destruct (Z.eq_dec a a') as [->|Na]; [destruct (Z.eq_dec b b') as [->|Nb]|].
    + rewrite E in E'. injection E' as ->. lia.
    + destruct (Z.le_gt_cases a' b), (Z.le_gt_cases a' b'); lia.
    + destruct (Z.le_gt_cases a b), (Z.le_gt_cases a' b'); lia.
Qed.
Theorem C60_f64_laws (a b a' b' : f64) : is_finite a = true -> is_finite b = true -> is_finite a' = true -> is_finite b' = true ->
  val (midpoint_f64 a a) = val a /\ val (midpoint_f64 a b) = val (midpoint_f64 b a) /\
  (val a' = - val a -> val b' = - val b -> val (midpoint_f64 a' b') = - val (midpoint_f64 a b)) /\
  (val a <= val a' -> val b <= val b' -> val (midpoint_f64 a b) <= val (midpoint_f64 a' b')).
Proof.
  intros Fa Fb Fa' Fb'. destruct (C60_f64 a a Fa Fa) as (_ & E0 & _). destruct (C60_f64 a b Fa Fb) as (_ & E1 & _). destruct (C60_f64 b a Fb Fa) as (_ & E2 & _). destruct (C60_f64 a' b' Fa' Fb') as (_ & E3 & _).
  rewrite E0, E1, E2, E3. split; [|split; [|split]].
  - replace ((val a + val a) / 2) with (val a) by lra. apply rnd_id, val_fmt.
  - f_equal. lra.
  - intros -> ->. rewrite <- rnd_opp. f_equal. lra.
  - intros La Lb. apply rnd_mono. lra.
Qed.
Theorem C60_laws_case : midpoint_int 64 7 7 = Ok 7%Z /\ midpoint_int 64 4 1 = Ok 3%Z /\ midpoint_int 64 4 2 = Ok 3%Z /\
  Beqb (midpoint_f64 (f_of_Z 3) (f_of_Z 8)) (midpoint_f64 (f_of_Z 8) (f_of_Z 3)) = true /\ Beqb (midpoint_f64 (f_of_Z (-3)) (f_of_Z (-8))) (f_make (-11) (-1)) = true.
Proof. repeat split; vm_compute; reflexivity. Qed.

(** ** variables *)
Local Open Scope Z_scope.
(** Dimensions [p]; the value at an index only depends on the coordinates of these. *)
Definition has_dims {A} (p : lshape) (x : darr A) : Prop := lwf p /\ dd x = mk p /\ forall e e', (forall d, In d (keys p) -> e d = e' d) -> dv x e = dv x e'.
(** The dimension meant by the argument: itself, or the only one. *)
Definition chosen (p : lshape) (arg : option Dim) (k : Dim) : Prop := match arg with Some d => d = k | None => keys p = [k] end.

Lemma part_ok {A} p1 k n p2 (x : darr A) b e : has_dims (p1 ++ (k, n) :: p2) x -> 0 <= b <= e -> e <= n ->
  exists y, part x k b e = Ok y /\ dd y = mk (p1 ++ (k, e - b) :: p2) /\ forall ix, dv y ix = dv x (put ix k (b + ix k)).
Proof.
  intros (Hl & Hd & _) Hb He. destruct (GroupBy_Reduce_Proofs.lwf_split _ _ _ _ Hl) as (Hk1 & Hk2 & _ & _). unfold part, slice_range.
  replace (b <? 0) with false by lia. replace (b >? e) with false by lia. rewrite andb_false_r. cbn [Z.eqb Z.ltb Z.compare bind]. unfold sizes_slice, valid_slice.
  assert (Es : slice_eqb (mkslice k b e 1) slice_default = false). { unfold slice_eqb, slice_default. cbn [s_dim s_begin s_end s_stride]. replace (b =? -1) with false by lia. rewrite andb_false_r. reflexivity. }
  rewrite Es. cbn [s_dim s_begin s_end s_stride]. rewrite Hd, dcontains_sp by exact Hk1. cbn [negb]. rewrite dat_sp by exact Hk1. cbn [bind]. replace (e <? 0) with false by lia. replace (e >? n) with false by lia. cbn [bind].
  unfold is_range. cbn [s_end]. replace (e =? -1) with false by lia. cbn [negb Z.eqb]. rewrite Z.rem_1_r, Z.quot_1_r. cbn [Z.eqb]. rewrite Z.add_0_r, Z.max_r by lia. rewrite resize_sp by (try exact Hk1; lia). cbn [bind].
  eexists. split; [reflexivity|]. split; [reflexivity|]. intros ix. reflexivity.
Qed.
Lemma merge_self p : lwf p -> dims_merge (mk p) (mk p) = Ok (mk p).
Proof.
  intros Hl. destruct (merge_mk p p Hl Hl) as (m & Em & _ & _ & Hw & _).
  - intros k n m Hn Hm. destruct Hl as (Hnd & _). apply (SizedDict_Proofs.In_unique p k n m Hnd Hn Hm).
  - rewrite Em, Hw; [reflexivity|]. intros e He. exact He.
Qed.
(** C60: with at least two elements along the dimension, the result has one element less, and each is the midpoint of the two neighbours. *)
Theorem C60_midpoints {A} (mid : A -> A -> A) p1 k n p2 (x : darr A) arg : has_dims (p1 ++ (k, n) :: p2) x -> chosen (p1 ++ (k, n) :: p2) arg k -> 2 <= n ->
  exists out, midpoints mid false x arg = Ok out /\ dd out = mk (p1 ++ (k, n - 1) :: p2) /\ forall ix, dv out ix = mid (dv x ix) (dv x (put ix k (ix k + 1))).
Proof.
  intros Hx Hc Hn. destruct (part_ok p1 k n p2 x 0 (n - 1) Hx ltac:(lia) ltac:(lia)) as (lo & El & Dl & Vl). destruct (part_ok p1 k n p2 x 1 n Hx ltac:(lia) ltac:(lia)) as (hi & Eh & Dh & Vh).
  destruct Hx as (Hl & Hd & Ho). destruct (GroupBy_Reduce_Proofs.lwf_split _ _ _ _ Hl) as (Hk1 & Hk2 & _ & _).
  assert (Hnd : ndim (dd x) = zlen (p1 ++ (k, n) :: p2)). { rewrite Hd. unfold ndim, labels, mk. cbn [m_keys]. unfold keys. apply zlen_map. }
  unfold midpoints. assert (H0 : ndim (dd x) =? 0 = false). { rewrite Hnd. apply Z.eqb_neq. unfold zlen. rewrite app_length. cbn [length]. lia. } rewrite H0.
  assert (Harg : match arg with Some d => Ok d | None => if negb (ndim (dd x) =? 1) then Throw InvalidArgument else Ok (dims_inner (dd x)) end = Ok k).
  { destruct arg as [d|]; cbn [chosen] in Hc; [rewrite Hc; reflexivity|]. assert (E1 : ndim (dd x) = 1). { rewrite Hd. unfold ndim, labels, mk. cbn [m_keys]. rewrite Hc. reflexivity. }
    rewrite E1. cbn [Z.eqb Pos.eqb negb]. rewrite Hd. unfold dims_inner, labels, mk. cbn [m_keys]. rewrite Hc. reflexivity. }
  rewrite Harg. cbn [bind]. rewrite Hd, dat_sp by exact Hk1. cbn [bind]. replace (n =? 1) with false by lia. rewrite El. cbn [bind]. rewrite Eh. cbn [bind]. rewrite Dl, Dh. replace (n - 1 - 0) with (n - 1) by lia.
  rewrite merge_self by (apply (SizedDict_Proofs.lwf_mid _ _ n); [exact Hl|lia]). cbn [bind]. eexists. split; [reflexivity|]. split; [reflexivity|]. intros ix. cbn [dv]. rewrite Vl, Vh. f_equal.
  - apply Ho. intros d _. unfold put. destruct (Z.eqb_spec d k) as [->|_]; [lia|reflexivity].
  - apply Ho. intros d _. unfold put. destruct (Z.eqb_spec d k) as [->|_]; [lia|reflexivity].
Qed.
(** C60: everything else is refused: no or several dimensions to choose from, a dimension that does not exist or has one or no element, variances. *)
Theorem C60_errors {A} (mid : A -> A -> A) p (x : darr A) arg variances : has_dims p x ->
  (exists out, midpoints mid variances x arg = Ok out) <-> (variances = false /\ exists k n, In (k, n) p /\ chosen p arg k /\ 2 <= n).
Proof.
  intros Hx. split.
  - intros (out & E). pose proof Hx as (Hl & Hd & _). pose proof Hl as (Hnd & Hnn & Hinv). unfold midpoints in E. destruct (ndim (dd x) =? 0) eqn:E0; [discriminate|].
    destruct (match arg with Some d => Ok d | None => if negb (ndim (dd x) =? 1) then Throw InvalidArgument else Ok (dims_inner (dd x)) end) as [k| |] eqn:Ek; cbn [bind] in E; try discriminate.
    rewrite Hd, dat_mk in E by exact Hnd. destruct (extent p k) as [n|] eqn:Ex; cbn [bind] in E; [|discriminate].
    assert (Hin : In (k, n) p). { destruct (extent_split p k n Ex) as (a & b & -> & _). apply in_or_app. right. left. reflexivity. }
    assert (Hn0 : 0 <= n) by (destruct (BinMeta_Proofs.lwf_entry p k n Hl Hin); assumption).
    assert (Hch : chosen p arg k).
    { destruct arg as [d|]; cbn [chosen]; [congruence|]. rewrite Hd in Ek. unfold ndim, dims_inner, labels, mk in Ek. cbn [m_keys] in Ek. destruct (zlen (keys p) =? 1) eqn:E1; cbn [negb] in Ek; [|discriminate].
      apply Z.eqb_eq in E1. unfold zlen in E1. destruct (keys p) as [|k1 [|k2 l]]; cbn [length] in E1; try lia. cbn [last] in Ek. congruence. }
    destruct (n =? 1) eqn:E1; [discriminate|]. apply Z.eqb_neq in E1. destruct (Z.eq_dec n 0) as [->|Nn].
    { exfalso. unfold part, slice_range in E. cbn in E. unfold sizes_slice, valid_slice in E. cbn [s_dim s_begin s_end s_stride] in E. assert (Es : slice_eqb (mkslice k 0 (-1) 1) slice_default = false) by (unfold slice_eqb, slice_default; cbn [s_dim s_begin s_end s_stride Z.eqb]; rewrite andb_false_r; reflexivity).
      rewrite Es, Hd in E. destruct (extent_split p k 0 Ex) as (a & b & -> & Hka). rewrite dcontains_sp in E by exact Hka. cbn [negb] in E. rewrite dat_sp in E by exact Hka. cbn in E. discriminate. }
    destruct variances; [exfalso|split; [reflexivity|]; exists k, n; repeat split; try assumption; lia].
    destruct (part x k 0 (n - 1)); cbn [bind] in E; try discriminate. destruct (part x k 1 n); cbn [bind] in E; try discriminate. destruct (dims_merge _ _); cbn [bind] in E; discriminate.
  - intros (-> & k & n & Hin & Hc & Hn). pose proof Hx as ((Hnd & _) & _). destruct (in_split_keys p k n Hnd Hin) as (a & b & -> & _). destruct (C60_midpoints mid a k n b x arg Hx Hc Hn) as (out & Eo & _). exists out. exact Eo.
Qed.

(** C60: for finite, rising doubles every midpoint lies in its bin, and midpoints rise. *)
Theorem C60_rising p1 k n p2 (x : darr f64) arg : has_dims (p1 ++ (k, n) :: p2) x -> chosen (p1 ++ (k, n) :: p2) arg k -> 2 <= n ->
  (forall ix, is_finite (dv x ix) = true) -> (forall ix i, (0 <= i < n - 1)%Z -> (val (dv x (put ix k i)) <= val (dv x (put ix k (i + 1))))%R) ->
  exists out, midpoints midpoint_f64 false x arg = Ok out /\
    forall ix i, (0 <= i < n - 1)%Z -> let m := dv out (put ix k i) in let a := dv x (put ix k i) in let b := dv x (put ix k (i + 1)) in
      is_finite m = true /\ (val a <= val m <= val b)%R /\ (Rabs (val m - (val a + val b) / 2) <= / 2 * bpow radix2 (-52) * Rabs ((val a + val b) / 2) + / 2 * bpow radix2 (-1074))%R /\
      ((i + 1 < n - 1)%Z -> (val m <= val (dv out (put ix k (i + 1))))%R).
Proof.
  intros Hx Hc Hn Hf Hs. destruct (C60_midpoints midpoint_f64 p1 k n p2 x arg Hx Hc Hn) as (out & Eo & _ & Ev). exists out. split; [exact Eo|].
  assert (Hm : forall ix i, dv out (put ix k i) = midpoint_f64 (dv x (put ix k i)) (dv x (put ix k (i + 1)))).
  { intros ix i. rewrite Ev. f_equal. destruct Hx as (_ & _ & Ho). apply Ho. intros d _. unfold put. rewrite Z.eqb_refl. destruct (Z.eqb_spec d k); reflexivity. }
  intros ix i Hi m a b. unfold m. rewrite Hm. fold a b. destruct (C60_f64 a b (Hf _) (Hf _)) as (F & E & B). pose proof (Hs ix i Hi) as Hab. fold a b in Hab. rewrite Rmin_left, Rmax_right in B by exact Hab.
  split; [exact F|]. split; [exact B|]. split; [rewrite E; apply rnd_half|].
  intros Hi1. rewrite Hm. replace (i + 1 + 1)%Z with (i + 2)%Z by lia. set (c := dv x (put ix k (i + 2))). fold b. destruct (C60_f64 b c (Hf _) (Hf _)) as (_ & E' & _). rewrite E, E'. apply rnd_mono. pose proof (Hs ix (i + 1) ltac:(lia)) as Hbc. replace (i + 1 + 1)%Z with (i + 2)%Z in Hbc by lia. fold b c in Hbc. lra.
Qed.

(** ** cases *)
Definition dx : Z := 10. Definition dy : Z := 20.
Definition edges : darr f64 := Accumulate_Model.mkd (mk [(dy, 2); (dx, 3)]) (fun ix => f_of_Z (ix dx * ix dx + ix dy)).
Theorem C60_midpoints_case : has_dims [(dy, 2); (dx, 3)] edges /\ chosen [(dy, 2); (dx, 3)] (Some dx) dx /\
  match midpoints midpoint_f64 false edges (Some dx) with
  | Ok out => dd out = mk [(dy, 2); (dx, 2)] /\ map (fun ij => Beqb (fadd (dv out (put (put (fun _ => 0) dy (fst ij)) dx (snd ij))) (dv out (put (put (fun _ => 0) dy (fst ij)) dx (snd ij)))) (f_of_Z (if snd ij =? 0 then 1 + 2 * fst ij else 5 + 2 * fst ij))) [(0, 0); (0, 1); (1, 0); (1, 1)] = [true; true; true; true]
  | _ => False end.
Proof.
  split; [|split; [reflexivity|split; vm_compute; reflexivity]]. split; [split; [|split]|split; [reflexivity|]].
  - repeat constructor; vm_compute; intuition discriminate.
  - repeat constructor; discriminate.
  - vm_compute; intuition discriminate.
  - intros e e' He. cbn [dv edges]. rewrite (He dx), (He dy) by (vm_compute; auto). reflexivity.
Qed.
(** The largest integers, and the largest doubles, do not overflow. *)
Theorem C60_large_case : midpoint_int 64 (2 ^ 63 - 1) (- 2 ^ 63) = Ok 0 /\ midpoint_int 64 (- 2 ^ 63) (2 ^ 63 - 1) = Ok (-1) /\ midpoint_int 32 (2 ^ 31 - 1) (2 ^ 31 - 2) = Ok (2 ^ 31 - 1) /\
  Beqb (midpoint_f64 (f_make (2 ^ 53 - 1) 971) (f_make (2 ^ 53 - 1) 971)) (f_make (2 ^ 53 - 1) 971) = true /\ is_finite (fadd (f_make (2 ^ 53 - 1) 971) (f_make (2 ^ 53 - 1) 971)) = false /\
  Beqb (midpoint_f64 (f_make 1 (-1074)) (f_make 3 (-1074))) (f_make 2 (-1074)) = true.
Proof. vm_compute. repeat split. Qed.
(** C60: for integers the midpoint depends on the order of the arguments. *)
Theorem C60_symmetric_refuted : exists a b, midpoint_int 64 a b <> midpoint_int 64 b a.
Proof. exists 0, 1. vm_compute. discriminate. Qed.
Print Assumptions C60_int.
Print Assumptions C60_f64.
Print Assumptions C60_special.
Print Assumptions C60_special_case.
Print Assumptions C60_int_laws.
Print Assumptions C60_f64_laws.
Print Assumptions C60_laws_case.
Print Assumptions C60_midpoints.
Print Assumptions C60_errors.
Print Assumptions C60_rising.
Print Assumptions C60_midpoints_case.
Print Assumptions C60_large_case.
Print Assumptions C60_symmetric_refuted.
