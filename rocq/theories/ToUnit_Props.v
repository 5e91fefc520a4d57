(** * C43: unit conversion of integers and time points
    The full claim: for every value and factor the result is an integer nearest to the exactly scaled value, nothing wraps,
    and converting to a finer unit and back is the identity. That is false for large values, see the counterexamples; it
    is proved here for scaled values up to 2^49, for factors [p / q] with [p <= 2^39] and [q <= 2^49] that the given
    double approximates to a relative error of 2^-51. *)
From Coq Require Import Reals Lra.
From Flocq Require Import Core BinarySingleNaN.
From Verif Require Import Base Float Numeric_Model Lookup_Proofs ToUnit_Model ToUnit_Spec ToUnit_Proofs.

(** ** errors *)
Theorem C43_errors dt same none s days x e : to_unit dt same none s days x = Throw e <->
  e = UnitError /\ same = false /\ (none = true \/ is_nan s = true \/ dt = TimePoint /\ days = true).
Proof.
  unfold to_unit. destruct same; [split; [discriminate|intros (_ & C & _); discriminate]|]. destruct none; [split; [intros E; injection E as <-; auto|intros (-> & _); reflexivity]|].
  destruct (is_nan s) eqn:N; [split; [intros E; injection E as <-; auto|intros (-> & _); reflexivity]|].
  assert (NT : forall int bits, (do sv <- scale_of int s; convert bits x sv) <> Throw e).
  { intros int bits. assert (C : forall y, safe_cast bits y <> Throw e) by (intros y; unfold safe_cast, f_to_Z; destruct (is_nan y); [discriminate|]; destruct (is_finite y && _); [destruct (is_finite y && _)|]; discriminate).
    assert (D : forall sv, convert bits x sv <> Throw e).
    { intros [k|s']; cbn [convert]; [unfold int_val; destruct (in_range 64 (x * k)); [|discriminate]; cbn [bind]; apply C|apply C]. }
    unfold scale_of, f_to_Z, int_val. destruct (fltb (fabs _) _); [|apply D]. destruct int; [|apply D]. destruct (is_finite _ && _); [|discriminate]. cbn [bind]. destruct (in_range 64 _); [apply D|discriminate]. }
  assert (OK1 : forall int bits, (do sv <- scale_of int s; convert bits x sv) = Throw e <-> e = UnitError /\ false = false /\ False) by (intros int bits; split; [intros E; destruct (NT _ _ E)|intros (_ & _ & [])]).
  destruct dt as [| |]; cbn [dtype_bits]; rewrite ?OK1.
  - split; [intros (_ & _ & [])|intros (_ & _ & [C|[C|[C _]]]); discriminate].
  - split; [intros (_ & _ & [])|intros (_ & _ & [C|[C|[C _]]]); discriminate].
  - destruct days; [split; [intros E; injection E as <-; auto 10|intros (-> & _); reflexivity]|]. rewrite OK1.
    split; [intros (_ & _ & [])|intros (_ & _ & [C|[C|[_ C]]]); discriminate].
Qed.
(** ** the nearest integer *)
Theorem C43_nearest_partial : forall dt (s : f64) days x p q, (1 <= p <= 2 ^ 39)%Z -> (1 <= q <= 2 ^ 49)%Z -> (Z.abs (x * p) <= 2 ^ 49)%Z ->
  is_finite s = true -> approximates (val s) p q -> (dt = TimePoint -> days = false) ->
  exists n, nearest x p q n /\ to_unit dt false false s days x = Ok (saturated (dtype_bits dt) n).
Proof. exact to_unit_nearest. Qed.
(** integer factors of int64 and time points: exact, up to 2^52 *)
Theorem C43_finer_partial : forall dt (s : f64) days x k, dt <> I32 -> (1 <= k <= 2 ^ 39)%Z -> (k <= 10 ^ 6 \/ (10 ^ 6 | k))%Z -> (Z.abs (x * k) < 2 ^ 52)%Z ->
  is_finite s = true -> approximates (val s) k 1 -> (dt = TimePoint -> days = false) ->
  to_unit dt false false s days x = Ok (x * k)%Z.
Proof. exact to_unit_finer. Qed.
(** forth and back *)
Theorem C43_round_trip_partial : forall dt (s s' : f64) days x k, (1 <= k <= 2 ^ 39)%Z -> (Z.abs (x * k) <= 2 ^ 49)%Z -> in_range (dtype_bits dt) (x * k) = true ->
  is_finite s = true -> approximates (val s) k 1 -> is_finite s' = true -> approximates (val s') 1 k -> (dt = TimePoint -> days = false) ->
  (do y <- to_unit dt false false s days x; to_unit dt false false s' days y) = Ok x.
Proof. exact to_unit_round_trip. Qed.

(** ** no wrapping: int32 with any factor, and int64 and time points with a factor kept as a double *)
Theorem C43_int32_total : forall (s : f64) days x, is_nan s = false -> exists r, to_unit I32 false false s days x = Ok r /\ in_range 32 r = true.
Proof. exact i32_total. Qed.
Theorem C43_saturates_partial : forall bits x (s : f64), (1 <= bits <= 64)%Z -> (Z.abs x <= 2 ^ 63)%Z -> is_finite s = true -> (Rabs (val s) <= bpow radix2 800)%R ->
  (bpow radix2 bits <= Rabs (IZR x * val s))%R ->
  convert bits x (SDouble s) = Ok (if Rlt_bool (IZR x * val s) 0 then - 2 ^ (bits - 1) else 2 ^ (bits - 1) - 1)%Z.
Proof. exact convert_saturates. Qed.

(** ** cases *)
Lemma approximates_int k : (1 <= k <= 2 ^ 53)%Z -> is_finite (f_of_Z k) = true /\ approximates (val (f_of_Z k)) k 1.
Proof.
  intros Hk. destruct (f_of_Z_exact k ltac:(lia)) as [E F]. split; [exact F|]. unfold approximates. rewrite E. replace (IZR k / 1)%R with (IZR k) by (field; lra).
  rewrite Rminus_diag_eq, Rabs_R0 by reflexivity. apply Rmult_le_pos; [apply bpow_ge_0|apply IZR_le; lia].
Qed.
Lemma approximates_inv k : (1 <= k <= 2 ^ 53)%Z -> is_finite (fdiv (f_of_Z 1) (f_of_Z k)) = true /\ approximates (val (fdiv (f_of_Z 1) (f_of_Z k))) 1 k.
Proof.
  intros Hk. destruct (inv_lit k Hk) as (e & He & E & F). split; [exact F|]. unfold approximates. rewrite E.
  assert (Hp : (0 < / IZR k)%R) by (apply Rinv_0_lt_compat, IZR_lt; lia).
  replace (1 / IZR k)%R with (/ IZR k)%R by (unfold Rdiv; ring). replace (/ IZR k * (1 + e) - / IZR k)%R with (e * / IZR k)%R by ring.
  rewrite Rabs_mult, (Rabs_pos_eq (/ IZR k)) by lra. apply Rmult_le_compat_r; [lra|]. eapply Rle_trans; [exact He|]. apply bpow_le. lia.
Qed.
(** nanoseconds to microseconds: 1499 ns and 1501 ns, -1501 ns *)
Definition to_micro : f64 := fdiv (f_of_Z 1) (f_of_Z 1000).
Example C43_nearest_case : (exists n, nearest 1501 1 1000 n /\ to_unit TimePoint false false to_micro false 1501 = Ok (saturated 64 n)) /\
  to_unit TimePoint false false to_micro false 1499 = Ok 1%Z /\ to_unit TimePoint false false to_micro false 1501 = Ok 2%Z /\ to_unit I32 false false to_micro false (-1501) = Ok (-2)%Z /\
  to_unit TimePoint false false to_micro true 1501 = Throw UnitError.
Proof.
  split; [|vm_compute; auto]. destruct (approximates_inv 1000 ltac:(lia)) as [F A]. apply (C43_nearest_partial TimePoint to_micro false 1501 1 1000); try assumption; try lia; reflexivity.
Qed.
(** hours to milliseconds: the factor 3600000 is split into 1000000 and 3.6, hence kept as a double *)
Example C43_finer_case : to_unit I64 false false (f_of_Z 1000) false (-1234567) = Ok (-1234567000)%Z /\ to_unit I64 false false (f_of_Z 3600000) false 7 = Ok 25200000%Z /\
  scale_of true (f_of_Z 1000000000) = Ok (SInt 1000000000) /\ (exists s, scale_of true (f_of_Z 3600000) = Ok (SDouble s)).
Proof.
  split; [|split; [vm_compute; reflexivity|split; [vm_compute; reflexivity|]]].
  - destruct (approximates_int 1000 ltac:(lia)) as [F A]. apply (C43_finer_partial I64 _ false (-1234567) 1000); try assumption; try lia; discriminate.
  - exists (f_of_Z 3600000). reflexivity.
Qed.
Example C43_round_trip_case : (do y <- to_unit TimePoint false false (f_of_Z 1000) false 123456789; to_unit TimePoint false false to_micro false y) = Ok 123456789%Z.
Proof.
  destruct (approximates_int 1000 ltac:(lia)) as [F A]. destruct (approximates_inv 1000 ltac:(lia)) as [F' A'].
  apply (C43_round_trip_partial TimePoint _ _ false 123456789 1000); try assumption; try lia; reflexivity.
Qed.
Example C43_saturates_case : to_unit I32 false false (f_of_Z 1000) false (2 ^ 30) = Ok (2 ^ 31 - 1)%Z /\ to_unit I32 false false (f_of_Z 1000) false (- 2 ^ 30) = Ok (- 2 ^ 31)%Z /\
  convert 32 (2 ^ 30) (SDouble (f_of_Z 1000)) = Ok (2 ^ 31 - 1)%Z.
Proof.
  split; [vm_compute; reflexivity|]. split; [vm_compute; reflexivity|]. destruct (f_of_Z_exact 1000 ltac:(lia)) as [E F].
  rewrite (C43_saturates_partial 32 (2 ^ 30) (f_of_Z 1000)); rewrite ?E; [|lia|lia|exact F| |].
  - rewrite Rlt_bool_false; [reflexivity|]. rewrite <- mult_IZR. apply IZR_le. lia.
  - apply Rle_trans with (bpow radix2 10); [change (bpow radix2 10) with 1024%R; rewrite Rabs_pos_eq; lra|apply bpow_le; lia].
  - rewrite <- mult_IZR, <- abs_IZR. change (bpow radix2 32) with (IZR (2 ^ 32)). apply IZR_le. lia.
Qed.

(** ** counterexamples *)
(** 2020-09-13 in microseconds, converted to nanoseconds: the product fits in 64 bits, but is rounded to a double *)
Theorem C43_nearest_refuted : ~ (forall dt (s : f64) days x p q n, (1 <= p <= 2 ^ 39)%Z -> (1 <= q <= 2 ^ 49)%Z -> in_range (dtype_bits dt) x = true ->
  (forall m, nearest x p q m -> in_range (dtype_bits dt) m = true) ->
  is_finite s = true -> approximates (val s) p q -> (dt = TimePoint -> days = false) -> to_unit dt false false s days x = Ok n -> nearest x p q n).
Proof.
  intros C. destruct (approximates_int 1000 ltac:(lia)) as [F A].
  specialize (C TimePoint (f_of_Z 1000) false 1600000000000001%Z 1000%Z 1%Z 1600000000000001024%Z ltac:(lia) ltac:(lia) eq_refl).
  assert (N : nearest 1600000000000001 1000 1 1600000000000001024); [|unfold nearest in N; lia]. apply C; try assumption; [|reflexivity|vm_compute; reflexivity].
  intros m Hm. unfold nearest in Hm. unfold in_range, dtype_bits. lia.
Qed.
(** the limit of 2^52 in [C43_finer_partial] is sharp: an odd product between 2^52 and 2^53 is off by one *)
Theorem C43_finer_refuted : to_unit I64 false false (f_of_Z 3) false 1501199875790167 = Ok (1501199875790167 * 3 + 1)%Z.
Proof. vm_compute. reflexivity. Qed.
(** the product of two int64_t overflows: undefined *)
Theorem C43_overflow_refuted : ~ (forall dt (s : f64) days x, in_range (dtype_bits dt) x = true -> is_finite s = true -> exists r, to_unit dt false false s days x = Ok r \/ to_unit dt false false s days x = Throw UnitError).
Proof. intros C. destruct (C I64 (f_of_Z 1000) false (2 ^ 62)%Z eq_refl eq_refl) as [r [E|E]]; vm_compute in E; discriminate E. Qed.
(** a factor of 10^30: its quotient by 10^6 does not fit in 64 bits, the cast is undefined even for the value zero *)
Theorem C43_factor_refuted : to_unit I64 false false (f_of_Z (10 ^ 30)) false 0 = Ub.
Proof. vm_compute. reflexivity. Qed.
(** microseconds to nanoseconds and back *)
Theorem C43_round_trip_refuted : (do y <- to_unit TimePoint false false (f_of_Z 1000) false (2 ^ 53 + 1); to_unit TimePoint false false to_micro false y) = Ok (2 ^ 53 + 2)%Z.
Proof. vm_compute. reflexivity. Qed.
Print Assumptions C43_errors.
Print Assumptions C43_nearest_partial.
Print Assumptions C43_finer_partial.
Print Assumptions C43_round_trip_partial.
Print Assumptions C43_int32_total.
Print Assumptions C43_saturates_partial.
