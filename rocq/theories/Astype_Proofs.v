(** Conversions round to nearest, in the extended reals. *)
From Coq Require Import Reals Lra.
From Flocq Require Import Core BinarySingleNaN.
From Verif Require Import Base Float Astype_Model Astype_Spec.
Local Open Scope R_scope.

Section One.
Context {p e : Z} {Hp : Prec_gt_0 p} {He : Prec_lt_emax p e}.
Notation fmt := (SpecFloat.fexp p e).
Definition near (x : R) : R := round radix2 (SpecFloat.fexp p e) ZnearestE x.
Definition ext_round (x : ext) : ext :=
  match x with Fin r => if Rlt_bool (Rabs (near r)) (bpow radix2 e) then Fin (near r) else if Rlt_bool r 0 then Minus else Plus | _ => x end.
#[local] Instance fmt_valid : Valid_exp fmt := fexp_correct p e Hp.

Lemma normalize_number m ex s : float_number (binary_normalize p e _ _ mode_NE m ex s : binary_float p e) = Some (ext_round (Fin (F2R (Defs.Float radix2 m ex)))).
Proof.
  pose proof (binary_normalize_correct p e _ _ mode_NE m ex s) as C. cbv zeta in C. cbn [ext_round]. unfold near.
  change (round_mode mode_NE) with ZnearestE in C.
  destruct (Rlt_bool (Rabs _) _) eqn:B.
  - destruct C as (C1 & C2 & _). destruct (binary_normalize _ _ _ _ _ _ _ _) as [| | |] in *; cbn [is_finite] in C2; try discriminate C2; cbn [float_number]; do 2 f_equal; exact C1.
  - unfold binary_overflow in C. cbn [overflow_to_inf] in C. destruct (binary_normalize _ _ _ _ _ _ _ _) as [| s'| |] in *; cbn [B2SF] in C; try discriminate C. injection C as ->. cbn [float_number].
    destruct (Rlt_bool _ 0); reflexivity.
Qed.
Lemma from_Z_number z : float_number (from_Z z : binary_float p e) = Some (ext_round (Fin (IZR z))).
Proof. unfold from_Z. rewrite normalize_number. do 3 f_equal. unfold F2R. cbn. ring. Qed.
Lemma near_0 : near 0 = 0. Proof. unfold near. apply round_0, valid_rnd_N. Qed.
Lemma ext_round_0 : ext_round (Fin 0) = Fin 0.
Proof. cbn [ext_round]. rewrite near_0, Rabs_R0, Rlt_bool_true by apply bpow_gt_0. reflexivity. Qed.
Lemma reround_number {p' e'} (x : binary_float p' e') : float_number (reround x : binary_float p e) = option_map ext_round (float_number x).
Proof.
  destruct x as [s|s| |s m ex Hb]; cbn [reround float_number option_map B2R].
  - rewrite ext_round_0. reflexivity.
  - destruct s; reflexivity.
  - reflexivity.
  - apply normalize_number.
Qed.
Lemma ext_le_refl x : ext_le x x. Proof. destruct x; cbn; auto. apply Rle_refl. Qed.
Lemma ext_round_le x y : ext_le x y -> ext_le (ext_round x) (ext_round y).
Proof.
  destruct x as [|x|], y as [|y|]; cbn [ext_le ext_round]; intros L; try exact I; try contradiction.
  - assert (M : near x <= near y) by (unfold near; apply round_le; [exact fmt_valid|apply valid_rnd_N|exact L]).
    destruct (Rlt_bool_spec (Rabs (near x)) (bpow radix2 e)) as [A|A], (Rlt_bool_spec (Rabs (near y)) (bpow radix2 e)) as [B|B].
    + exact M.
    + destruct (Rlt_bool_spec y 0) as [Y|Y]; [|exact I]. cbn [ext_le]. exfalso.
      assert (N : near y <= 0) by (rewrite <- near_0; unfold near; apply round_le; [exact fmt_valid|apply valid_rnd_N|lra]).
      rewrite (Rabs_left1 _ N) in B. apply Rabs_def2 in A. lra.
    + destruct (Rlt_bool_spec x 0) as [Y|Y]; [exact I|]. cbn [ext_le]. exfalso.
      assert (N : 0 <= near x) by (rewrite <- near_0; unfold near; apply round_le; [exact fmt_valid|apply valid_rnd_N|lra]).
      rewrite (Rabs_pos_eq _ N) in A. apply Rabs_def2 in B. lra.
    + destruct (Rlt_bool_spec x 0) as [X|X], (Rlt_bool_spec y 0) as [Y|Y]; try exact I. lra.
  - destruct (Rlt_bool _ _); [exact I|]. destruct (Rlt_bool _ _); exact I.
Qed.
Lemma ext_round_exact r : generic_format radix2 fmt r -> Rabs r < bpow radix2 e -> ext_round (Fin r) = Fin r.
Proof. intros F B. cbn [ext_round]. unfold near. rewrite round_generic by (try apply valid_rnd_N; exact F). rewrite Rlt_bool_true by exact B. reflexivity. Qed.
Lemma ext_round_self (x : binary_float p e) z : float_number x = Some z -> ext_round z = z.
Proof.
  intros N. destruct (is_finite x) eqn:F.
  - assert (E : float_number x = Some (Fin (B2R x))) by (destruct x; try discriminate F; reflexivity). rewrite N in E. injection E as ->. apply ext_round_exact; [apply generic_format_B2R|apply abs_B2R_lt_emax].
  - destruct x as [s|[]| |s m ex Hb]; try discriminate F; try discriminate N; injection N as <-; reflexivity.
Qed.
Lemma near_closest r (w : binary_float p e) : Rabs (near r - r) <= Rabs (B2R w - r).
Proof. unfold near. destruct (round_N_pt radix2 fmt (fun z => negb (Z.even z)) r) as [_ C]. apply C. apply generic_format_B2R. Qed.
Lemma fmt_int z : (Z.abs z <= 2 ^ p)%Z -> (e >= 2)%Z -> generic_format radix2 fmt (IZR z).
Proof.
  intros B E2. pose proof (He : (p < e)%Z) as L. pose proof (Hp : (0 < p)%Z) as P. unfold SpecFloat.fexp, SpecFloat.emin.
  change (fun e0 => Z.max (e0 - p) (3 - e - p)) with (FLT_exp (3 - e - p) p).
  assert (Em : (3 - e - p <= 0)%Z) by lia.
  destruct (Z.eq_dec (Z.abs z) (2 ^ p)) as [E|Hne].
  - assert (Hb : generic_format radix2 (FLT_exp (3 - e - p) p) (IZR (2 ^ p))).
    { rewrite (IZR_Zpower radix2) by lia. apply generic_format_bpow. unfold FLT_exp. lia. }
    destruct (Z.abs_eq_or_opp z) as [Ea|Ea]; rewrite Ea in E; [rewrite E; exact Hb|].
    replace z with (- 2 ^ p)%Z by lia. rewrite opp_IZR. apply generic_format_opp. exact Hb.
  - apply generic_format_FLT. exists (Defs.Float radix2 z 0); cbn [Fnum Fexp].
    + unfold F2R. cbn. ring.
    + change (Z.abs z < 2 ^ p)%Z. lia.
    + lia.
Qed.
Lemma trunc_val (x : binary_float p e) : Btrunc x = Ztrunc (B2R x).
Proof. apply eq_IZR. rewrite (Btrunc_correct p e He). unfold round, scaled_mantissa, cexp, FIX_exp, F2R. cbn. rewrite !Rmult_1_r. reflexivity. Qed.
Lemma less_number (x y : binary_float p e) : Bltb x y = true <-> exists a b, float_number x = Some a /\ float_number y = Some b /\ ext_lt a b.
Proof.
  destruct (is_finite x && is_finite y) eqn:F.
  - apply andb_prop in F. destruct F as [Fx Fy]. rewrite (Bltb_correct p e x y Fx Fy).
    assert (Nx : float_number x = Some (Fin (B2R x))) by (destruct x; try discriminate Fx; reflexivity).
    assert (Ny : float_number y = Some (Fin (B2R y))) by (destruct y; try discriminate Fy; reflexivity).
    rewrite Nx, Ny. destruct (Rlt_bool_spec (B2R x) (B2R y)) as [L|L].
    + split; [intros _|reflexivity]. do 2 eexists. split; [reflexivity|]. split; [reflexivity|]. split; [cbn; lra|]. intros C. injection C as C. lra.
    + split; [discriminate|]. intros (a & b & Ea & Eb & Le & Ne). injection Ea as <-. injection Eb as <-. cbn in Le. exfalso. apply Ne. f_equal. lra.
  - unfold ext_lt. destruct x as [sx|sx| |sx mx ex Hx], y as [sy|sy| |sy my ey Hy]; try discriminate F; cbn [float_number]; try destruct sx; try destruct sy; split; intros E; try discriminate E; try reflexivity;
      try (do 2 eexists; split; [reflexivity|]; split; [reflexivity|]; split; [exact I|discriminate]);
      destruct E as (a & b & Ea & Eb & Le & Ne); try discriminate; injection Ea as <-; injection Eb as <-; try contradiction; try (exfalso; apply Ne; reflexivity).
Qed.
End One.
