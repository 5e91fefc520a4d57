(** Properties of integer division and powers (C39) and of the detection of ranges (C40). *)
From Coq Require Import Reals Lra Sorted.
From Flocq Require Import Core BinarySingleNaN.
From Verif Require Import Base Float Numeric_Model.

(** ** C39: floor division and remainder *)
Lemma floor_divide_ok bits a b : 1 < bits <= 64 -> Z.abs a < 2 ^ 53 -> in_range bits b = true -> b <> 0 ->
  floor_divide bits a b = int_val bits (a / b).
Proof.
  intros Hbits Ha Hb Hb0. unfold floor_divide, f_to_Z, int_val. replace (b =? 0) with false by lia.
  assert (Hb63 : Z.abs b <= 2 ^ 63).
  { unfold in_range in Hb. assert (2 ^ (bits - 1) <= 2 ^ 63) by (apply Z.pow_le_mono_r; lia). lia. }
  destruct (f_of_Z_exact a) as [Ea Fa]; [lia|]. destruct (f_of_Z_val b) as [Eb Fb]; [lia|].
  (* the divisor as a double is an integer [b'] *)
  assert (exists b', val (f_of_Z b) = IZR b' /\ Z.abs b' <= 2 ^ 63 /\ b' <> 0 /\ (a / b' = a / b)) as (b' & Eb' & Hb' & Hb'0 & Hdiv).
  { destruct (Z.le_gt_cases (Z.abs b) (2 ^ 53)) as [Hs|Hl].
    - exists b. rewrite (proj1 (f_of_Z_exact b Hs)). auto.
    - set (c := Ztrunc (val (f_of_Z b))).
      assert (Hint : exists z, val (f_of_Z b) = IZR z /\ 2 ^ 53 <= Z.abs z <= 2 ^ 63 /\ (0 < z <-> 0 < b)).
      { rewrite Eb. assert (Hmag : (2 ^ 53 <= Z.abs b)) by lia.
        assert (Habs : (bpow radix2 53 <= Rabs (rnd (IZR b)) <= bpow radix2 63)%R).
        { split.
          - apply abs_round_ge_generic; try typeclasses eauto.
            + apply generic_format_bpow. vm_compute. discriminate.
            + rewrite <- abs_IZR. replace (bpow radix2 53) with (IZR (2 ^ 53)) by reflexivity. apply IZR_le. assumption.
          - apply abs_round_le_generic; try typeclasses eauto.
            + apply generic_format_bpow. vm_compute. discriminate.
            + rewrite <- abs_IZR. replace (bpow radix2 63) with (IZR (2 ^ 63)) by reflexivity. apply IZR_le. assumption. }
        (* a double of that magnitude is an integer *)
        assert (exists z, rnd (IZR b) = IZR z) as [z Ez].
        { unfold round, F2R. cbn [Fnum Fexp]. set (m := ZnearestE _). set (e := cexp radix2 fexp64 (IZR b)).
          assert (He : 0 <= e).
          { unfold e, cexp, FLT_exp. assert (54 <= mag radix2 (IZR b)); [|lia]. apply mag_ge_bpow. rewrite <- abs_IZR.
            replace (bpow radix2 (54 - 1)) with (IZR (2 ^ 53)) by reflexivity. apply IZR_le. assumption. }
          exists (m * 2 ^ e). rewrite mult_IZR. f_equal. replace 2 with (radix_val radix2) by reflexivity. rewrite IZR_Zpower by assumption. reflexivity. }
        exists z. split; [assumption|]. rewrite Ez in Habs. rewrite <- abs_IZR in Habs.
        replace (bpow radix2 53) with (IZR (2 ^ 53)) in Habs by reflexivity. replace (bpow radix2 63) with (IZR (2 ^ 63)) in Habs by reflexivity.
        destruct Habs as [Hx Hy]. apply le_IZR in Hx, Hy. split; [split; assumption|].
        assert (Hsign : (0 <= b -> 0 <= z) /\ (b <= 0 -> z <= 0)).
        { split; intros Hs; apply le_IZR; rewrite <- Ez.
          - apply round_ge_generic; try typeclasses eauto; [apply generic_format_0|]. apply IZR_le. assumption.
          - apply round_le_generic; try typeclasses eauto; [apply generic_format_0|]. apply IZR_le. assumption. }
        lia. }
      destruct Hint as (z & Ez & Hz & Hs). exists z. split; [assumption|]. split; [lia|]. split; [lia|].
      destruct (Z.lt_trichotomy a 0) as [Hneg|[->|Hpos]]; [|rewrite !Z.div_0_l by lia; reflexivity|].
      + destruct (Z.lt_trichotomy b 0) as [Hbn|[?|Hbp]]; [|lia|].
        * rewrite <- (Z.div_opp_opp a z), <- (Z.div_opp_opp a b) by lia. rewrite !Z.div_small by lia. reflexivity.
        * rewrite <- (Z.div_unique_pos a z (-1) (a + z)), <- (Z.div_unique_pos a b (-1) (a + b)) by lia. reflexivity.
      + destruct (Z.lt_trichotomy b 0) as [Hbn|[?|Hbp]]; [|lia|].
        * rewrite <- (Z.div_unique_neg a z (-1) (a + z)), <- (Z.div_unique_neg a b (-1) (a + b)) by lia. reflexivity.
        * rewrite !Z.div_small by lia. reflexivity. }
  assert (Hval0 : val (f_of_Z b) <> 0%R) by (rewrite Eb'; apply not_0_IZR; assumption).
  assert (Hq : (Rabs (val (f_of_Z a) / val (f_of_Z b)) <= bpow radix2 53)%R).
  { rewrite Ea, Eb'. unfold Rdiv. rewrite Rabs_mult, Rabs_inv, <- !abs_IZR. replace (bpow radix2 53) with (IZR (2 ^ 53)) by reflexivity.
    apply Rle_trans with (IZR (Z.abs a) * 1)%R.
    - apply Rmult_le_compat_l; [apply IZR_le; lia|]. rewrite <- Rinv_1. apply Rinv_le; [lra|]. apply IZR_le. lia.
    - rewrite Rmult_1_r. apply IZR_le. lia. }
  destruct (fdiv_val (f_of_Z a) (f_of_Z b) Fa Hval0) as [Ed Fd]; [apply (rnd_lt_max _ 53); [lia|assumption|lia]|].
  rewrite (proj2 (floor_val _)), Fd, Btrunc_floor, Ed, Ea, Eb'. rewrite floor_rnd_div by assumption. rewrite Hdiv. reflexivity.
Qed.

(** The division law. Missing for the full statement: dividends of 2^53 and more, for which the result is wrong
    ([C39_division_refuted]), and results or products that do not fit the type ([C39_overflow_refuted]). *)
Theorem C39_division_partial bits a b : 1 < bits <= 64 -> Z.abs a < 2 ^ 53 -> in_range bits a = true -> in_range bits b = true ->
  in_range bits (a / b) = true -> in_range bits (a / b * b) = true ->
  exists q r, floor_divide bits a b = Ok q /\ remainder bits a b = Ok r /\
    (b = 0 -> q = 0 /\ r = 0) /\
    (b <> 0 -> a = b * q + r /\ (0 < b -> 0 <= r < b) /\ (b < 0 -> b < r <= 0)).
Proof.
  intros Hbits Ha Hra Hrb Hq Hp. destruct (Z.eq_dec b 0) as [->|Hb].
  - exists 0, 0. unfold remainder, floor_divide. cbn. split; [reflexivity|]. split; [reflexivity|]. split; [auto|intros X; contradiction].
  - assert (E : floor_divide bits a b = Ok (a / b)) by (rewrite floor_divide_ok by assumption; unfold int_val; rewrite Hq; reflexivity).
    pose proof (Z.div_mod a b Hb) as Hdm. pose proof (Z.mod_pos_bound a b) as Hmp. pose proof (Z.mod_neg_bound a b) as Hmn.
    exists (a / b), (a mod b). split; [assumption|]. split; [|split; [intros; contradiction|intros _; split; [assumption|split; assumption]]].
    unfold remainder. replace (b =? 0) with false by lia. rewrite E. cbn [bind]. unfold int_val. rewrite Hp. cbn [bind].
    replace (a - a / b * b) with (a mod b) by lia. replace (in_range bits (a mod b)) with true; [reflexivity|].
    unfold in_range in *. lia.
Qed.
Print Assumptions C39_division_partial.

(** 32-bit integers and differences: complete except for overflow. *)
Corollary C39_division_int32_partial a b : in_range 32 a = true -> in_range 32 b = true ->
  in_range 32 (a / b) = true -> in_range 32 (a / b * b) = true ->
  exists q r, floor_divide 32 a b = Ok q /\ remainder 32 a b = Ok r /\
    (b = 0 -> q = 0 /\ r = 0) /\
    (b <> 0 -> a = b * q + r /\ (0 < b -> 0 <= r < b) /\ (b < 0 -> b < r <= 0)).
Proof. intros Ha. apply C39_division_partial; try assumption; [lia|]. unfold in_range in Ha. cbn in Ha. lia. Qed.
Print Assumptions C39_division_int32_partial.

Example C39_division_case : in_range 64 (-7 / 2) = true /\ floor_divide 64 (-7) 2 = Ok (-4) /\ remainder 64 (-7) 2 = Ok 1 /\
  floor_divide 64 7 (-2) = Ok (-4) /\ remainder 64 7 (-2) = Ok (-1) /\ floor_divide 64 5 0 = Ok 0 /\
  floor_divide 64 (2 ^ 53 - 1) (2 ^ 63 - 1) = Ok 0.
Proof. vm_compute. repeat split. Qed.

(** 2^53+1 divided by 1 gives 2^53, remainder 1: the remainder is not below the divisor. *)
Theorem C39_division_refuted : exists a b, in_range 64 a = true /\ in_range 64 b = true /\ 0 < b /\
  floor_divide 64 a b = Ok (a - 1) /\ floor_divide 64 a b <> Ok (a / b) /\ exists r, remainder 64 a b = Ok r /\ ~ (0 <= r < b).
Proof. exists (2 ^ 53 + 1), 1. vm_compute. repeat split; try discriminate. exists 1. split; [reflexivity|]. intros [_ X]. discriminate. Qed.
Print Assumptions C39_division_refuted.
(** A remainder of 32-bit integers that needs a product which does not fit. *)
Theorem C39_overflow_refuted : exists a b, in_range 32 a = true /\ in_range 32 b = true /\ b <> 0 /\
  in_range 32 (a mod b) = true /\ remainder 32 a b = Ub.
Proof. exists (- 2 ^ 31), 3. vm_compute. repeat split; discriminate. Qed.
Print Assumptions C39_overflow_refuted.

(** ** C39: powers *)
Lemma abs_pow_le b i j : 0 <= i <= j -> b <> 0 -> Z.abs (b ^ i) <= Z.abs (b ^ j).
Proof.
  intros Hij Hb. rewrite !Z.abs_pow. apply Z.pow_le_mono_r; lia.
Qed.
Lemma mid_range bits b i e : 1 < bits -> 0 <= i < e -> in_range bits (b ^ e) = true -> in_range bits (b ^ i) = true.
Proof.
  intros Hbits Hi He. unfold in_range in *. assert (Hp : 2 <= 2 ^ (bits - 1)) by (change 2 with (2 ^ 1) at 1; apply Z.pow_le_mono_r; lia).
  destruct (Z.le_gt_cases (Z.abs b) 1) as [Hs|Hl].
  - assert (Z.abs (b ^ i) <= 1); [|lia]. rewrite Z.abs_pow. rewrite <- (Z.pow_1_l i) by lia. apply Z.pow_le_mono_l. lia.
  - assert (2 * Z.abs (b ^ i) <= Z.abs (b ^ e)).
    { assert (Hi1 : Z.abs (b ^ (Z.succ i)) <= Z.abs (b ^ e)) by (apply abs_pow_le; lia). rewrite Z.pow_succ_r, Z.abs_mul in Hi1 by lia. nia. }
    lia.
Qed.
Lemma pow_pos_ok bits b : 1 < bits -> in_range bits b = true -> forall fuel e, 0 <= e < Z.of_nat fuel -> in_range bits (b ^ e) = true ->
  pow_pos fuel bits b e = Ok (b ^ e).
Proof.
  intros Hbits Hb. induction fuel as [|fuel IH]; intros e He Hr; [lia|]. cbn [pow_pos].
  destruct (Z.eqb_spec e 0) as [->|He0]; [reflexivity|]. destruct (Z.eqb_spec e 1) as [->|He1]; [rewrite Z.pow_1_r; reflexivity|].
  rewrite Z.quot_div_nonneg, Z.rem_mod_nonneg by lia. pose proof (Z.div_mod e 2 ltac:(lia)) as Hd. pose proof (Z.mod_pos_bound e 2 ltac:(lia)) as Hm.
  set (k := e / 2) in *.
  rewrite IH; [|lia|apply (mid_range bits b k e); try assumption; lia]. cbn [bind]. unfold int_val.
  destruct (Z.eqb_spec (e mod 2) 0) as [Hm0|Hm1].
  - rewrite <- Z.pow_add_r by lia. replace (k + k) with e by lia. rewrite Hr. reflexivity.
  - replace (b * b ^ k) with (b ^ (k + 1)) by (rewrite Z.pow_add_r, Z.pow_1_r by lia; ring).
    rewrite (mid_range bits b (k + 1) e) by (try assumption; lia). cbn [bind]. rewrite <- Z.pow_add_r by lia. replace (k + 1 + k) with e by lia. rewrite Hr. reflexivity.
Qed.

(** Powers with a result that fits the type: repeated multiplication, without intermediate overflow. *)
Theorem C39_power bits b e : 1 < bits -> in_range bits b = true -> 0 <= e -> in_range bits (b ^ e) = true ->
  ipow bits b e = Ok (b ^ e) /\ b ^ e = fold_right Z.mul 1 (repeat b (Z.to_nat e)).
Proof.
  intros Hbits Hb He Hr. split.
  - unfold ipow. replace (e >=? 0) with true by lia. apply pow_pos_ok; try assumption. lia.
  - clear Hr. rewrite <- (Z2Nat.id e) at 1 by assumption. induction (Z.to_nat e) as [|n IH]; [reflexivity|].
    rewrite Nat2Z.inj_succ, Z.pow_succ_r by lia. cbn [repeat fold_right]. rewrite IH. reflexivity.
Qed.
Print Assumptions C39_power.
(** Results that are returned are right, also for exponents below zero (1/b^|e|, truncated). *)
Theorem C39_power_negative bits b e : 1 < bits -> in_range bits b = true -> e < 0 -> in_range bits (b ^ (- e)) = true ->
  ipow bits b e = (if b =? 0 then Ub else Ok (Z.quot 1 (b ^ (- e)))).
Proof.
  intros Hbits Hb He Hr. unfold ipow. replace (e >=? 0) with false by lia. rewrite pow_pos_ok by (try assumption; lia). cbn [bind].
  destruct (Z.eqb_spec b 0) as [->|Hb0].
  - rewrite Z.pow_0_l by lia. reflexivity.
  - assert (Hne : b ^ (- e) <> 0) by (apply Z.pow_nonzero; lia). replace (b ^ (- e) =? 0) with false by lia. unfold int_val.
    assert (Hq : Z.abs (Z.quot 1 (b ^ - e)) <= 1).
    { rewrite <- Z.quot_abs by assumption. apply Z.quot_le_upper_bound; lia. }
    assert (Hp : 2 <= 2 ^ (bits - 1)) by (change 2 with (2 ^ 1) at 1; apply Z.pow_le_mono_r; lia).
    replace (in_range bits (Z.quot 1 (b ^ - e))) with true; [reflexivity|]. unfold in_range. lia.
Qed.
Print Assumptions C39_power_negative.
Example C39_power_case : in_range 64 ((-3) ^ 39) = true /\ ipow 64 (-3) 39 = Ok ((-3) ^ 39) /\ ipow 64 (-2) 63 = Ok (- 2 ^ 63) /\
  ipow 64 2 (-3) = Ok 0 /\ ipow 64 (-1) (-3) = Ok (-1).
Proof. vm_compute. repeat split. Qed.

(** ** C40: ranges *)
(** [first, first + step, first + 2 step, ...] *)
Definition progression (first step : Z) (n : nat) : list Z := map (fun i => first + step * Z.of_nat i) (seq 0 n).

Lemma progression_S a d n : progression a d (S n) = a :: progression (a + d) d n.
Proof. unfold progression. cbn [seq map]. f_equal; [lia|]. rewrite <- seq_shift, map_map. apply map_ext. intros; lia. Qed.

Lemma last_default {A} (l : list A) a b : l <> [] -> last l a = last l b.
Proof. intros Hl. induction l as [|x l IH]; [contradiction|]. destruct l; [reflexivity|]. apply IH. discriminate. Qed.
Lemma steps_up d : 0 < d -> forall l a, no_adjacent (fun x y => negb (Z.abs (y - x) =? d)) (a :: l) = true ->
  last (a :: l) a <= a + d * Z.of_nat (length l) /\ (last (a :: l) a = a + d * Z.of_nat (length l) -> a :: l = progression a d (S (length l))).
Proof.
  intros Hd. induction l as [|b l IH]; intros a Hn.
  - cbn [last length]. split; [lia|]. intros _. rewrite progression_S. reflexivity.
  - change (no_adjacent (fun x y => negb (Z.abs (y - x) =? d)) (a :: b :: l)) with (negb (negb (Z.abs (b - a) =? d)) && no_adjacent (fun x y => negb (Z.abs (y - x) =? d)) (b :: l)) in Hn.
    rewrite negb_involutive in Hn. apply andb_prop in Hn as [Hab Hn]. specialize (IH b Hn). destruct IH as [IH1 IH2].
    change (last (a :: b :: l) a) with (last (b :: l) a). rewrite (last_default (b :: l) a b) by discriminate.
    cbn [length]. split; [lia|]. intros E. assert (b = a + d) by lia. subst b. rewrite progression_S. f_equal. apply IH2. lia.
Qed.
Lemma no_adjacent_ext {A} (p q : A -> A -> bool) l : (forall x y, p x y = q x y) -> no_adjacent p l = no_adjacent q l.
Proof.
  intros E. induction l as [|a l IH]; [reflexivity|]. destruct l as [|b l]; [reflexivity|].
  change (no_adjacent p (a :: b :: l)) with (negb (p a b) && no_adjacent p (b :: l)). rewrite E, IH. reflexivity.
Qed.
Lemma progression_steps d : forall n a, no_adjacent (fun x y => negb (Z.abs (y - x) =? Z.abs d)) (progression a d n) = true.
Proof.
  induction n as [|n IH]; intros a; [reflexivity|]. rewrite progression_S. destruct n as [|n]; [reflexivity|]. specialize (IH (a + d)). rewrite progression_S in *.
  change (negb (negb (Z.abs (a + d - a) =? Z.abs d)) && no_adjacent (fun x y => negb (Z.abs (y - x) =? Z.abs d)) (a + d :: progression (a + d + d) d n) = true).
  rewrite IH. replace (a + d - a) with d by lia. rewrite Z.eqb_refl. reflexivity.
Qed.
Lemma last_progression d : forall n a b, last (progression a d (S n)) b = a + d * Z.of_nat n.
Proof.
  intros n a b. unfold progression. rewrite seq_S, map_app. cbn [map Nat.add]. apply last_last.
Qed.

(** Labels accepted by [isarange] are a contiguous range exactly if the last one is as far from the first as there are
    labels in between. Missing for the full statement: this condition, which the code does not check. *)
Theorem C40_isarange_partial a l : last (a :: l) a = a + Z.of_nat (length l) ->
  isarange (a :: l) = true <-> a :: l = progression a 1 (S (length l)).
Proof.
  intros Hlast. split.
  - intros E. unfold isarange in E. destruct l as [|b l]; [cbn [length]; rewrite progression_S; reflexivity|].
    destruct (last (a :: b :: l) a <=? a) eqn:El; [discriminate|]. destruct (steps_up 1 ltac:(lia) (b :: l) a E) as [_ Hx]. apply Hx. lia.
  - intros E. rewrite E. unfold isarange. rewrite progression_S. destruct l as [|b l]; [reflexivity|]. cbn [length]. rewrite progression_S.
    cbn [length] in Hlast. rewrite <- !progression_S. rewrite last_progression. destruct (Z.leb_spec (a + 1 * Z.of_nat (S (length l))) a); [lia|].
    exact (progression_steps 1 (S (S (length l))) a).
Qed.
Print Assumptions C40_isarange_partial.
(** Every accepted list goes from its first to its last label in steps of 1 or -1 and ends above the start; in particular
    sorted labels that are accepted are a contiguous range. *)
Theorem C40_isarange_sorted_partial a b l : isarange (a :: b :: l) = true -> StronglySorted Z.le (a :: b :: l) ->
  a :: b :: l = progression a 1 (S (S (length l))).
Proof.
  intros E Hs. unfold isarange in E. destruct (last (a :: b :: l) a <=? a); [discriminate|]. clear - E Hs.
  revert a b E Hs. induction l as [|c l IH]; intros a b E Hs.
  - cbn in E. rewrite progression_S, progression_S. cbn [progression map seq]. inversion Hs as [|? ? ? Hf]; subst. apply Forall_inv in Hf. f_equal. f_equal. lia.
  - change (negb (negb (Z.abs (b - a) =? 1)) && no_adjacent (fun x y => negb (Z.abs (y - x) =? 1)) (b :: c :: l) = true) in E.
    apply andb_prop in E as [E1 E2]. inversion Hs as [|? ? Hs' Hf]; subst. apply Forall_inv in Hf. rewrite progression_S. f_equal.
    replace (a + 1) with b by lia. apply IH; assumption.
Qed.
Print Assumptions C40_isarange_sorted_partial.
Example C40_isarange_case : isarange [3; 4; 5; 6] = true /\ last [3; 4; 5; 6] 3 = 3 + 3 /\ isarange [3; 5] = false /\ isarange [4; 3] = false.
Proof. repeat split. Qed.

(** Labels with a repeated value are classified as a contiguous range; grouping then puts an event with label 2 into the
    third group, which is the one with label 0. *)
Theorem C40_isarange_refuted : exists l, isarange l = true /\ ~ NoDup l /\ forall a, l <> progression a 1 (length l).
Proof.
  exists [0; 1; 0; 1; 2]. split; [reflexivity|]. split.
  - intros Hn. inversion Hn as [|? ? Hx]; subst. apply Hx. cbn. auto.
  - intros a E. cbn in E. injection E as E1 E2 E3 _. lia.
Qed.
Print Assumptions C40_isarange_refuted.

(** ** C40: linear spacing, integers *)
Theorem C40_islinspace_int_partial a b l : last (a :: b :: l) a = a + (b - a) * Z.of_nat (S (length l)) ->
  islinspace_int (a :: b :: l) = true <-> (a < b /\ a :: b :: l = progression a (b - a) (S (S (length l)))).
Proof.
  intros Hlast. unfold islinspace_int. destruct (last (a :: b :: l) a <=? a) eqn:El.
  - split; [discriminate|]. intros [Hab _]. nia.
  - assert (Hab : a < b) by nia. split.
    + intros E. split; [assumption|]. destruct (steps_up (b - a) ltac:(lia) (b :: l) a E) as [_ Hx]. cbn [length] in Hx. apply Hx. assumption.
    + intros [_ E]. rewrite E at 1. rewrite <- (progression_steps (b - a) (S (S (length l))) a). rewrite Z.abs_eq by lia. reflexivity.
Qed.
Print Assumptions C40_islinspace_int_partial.
Theorem C40_islinspace_int_refuted : exists l, islinspace_int l = true /\ (forall a d, l <> progression a d (length l)) /\ ~ StronglySorted Z.le l.
Proof.
  exists [0; 1; 0; 1]. split; [reflexivity|]. split.
  - intros a d E. cbn in E. injection E as E1 E2 E3 _. lia.
  - intros Hs. inversion Hs as [|? ? Hs' _]; subst. inversion Hs' as [|? ? _ Hf]; subst. apply Forall_inv in Hf. lia.
Qed.
Print Assumptions C40_islinspace_int_refuted.
Example C40_islinspace_int_case : islinspace_int [2; 5; 8] = true /\ last [2; 5; 8] 2 = 2 + (5 - 2) * 2 /\ islinspace_int [2; 5; 9] = false.
Proof. repeat split. Qed.

(** ** C40: linear spacing, double *)
(** Above 2^53 the tolerance exceeds the step: unsorted edges are accepted. *)
Theorem C40_islinspace_f64_refuted : exists a b c d : f64,
  islinspace_f64 [a; b; c; d] = true /\ fltb c b = true /\ fltb a d = true /\ forallb is_finite [a; b; c; d] = true.
Proof. exists (f_of_Z (2 ^ 53)), (f_of_Z (2 ^ 53 + 8)), (f_of_Z (2 ^ 53 + 2)), (f_of_Z (2 ^ 53 + 6)). vm_compute. repeat split. Qed.
Print Assumptions C40_islinspace_f64_refuted.
(** So are edges with a NaN in between. *)
Theorem C40_islinspace_nan_refuted : exists a b c : f64, islinspace_f64 [a; b; c] = true /\ is_nan b = true.
Proof. exists (f_of_Z 0), B754_nan, (f_of_Z 2). vm_compute. split; reflexivity. Qed.
Print Assumptions C40_islinspace_nan_refuted.
