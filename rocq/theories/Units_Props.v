(** * C47: units form a consistent algebra, and operations on data respect it *)
From Coq Require Import Reals Lra.
From Flocq Require Import Core BinarySingleNaN.
From Verif Require Import Base Float Units_Model Units_Spec Units_Proofs.

(** ** the widths of the library's bit fields: m kg s A K mol cd $ counts rad *)
Definition widths : limits := [(-8, 7); (-4, 3); (-8, 7); (-4, 3); (-4, 3); (-2, 1); (-2, 1); (-2, 1); (-2, 1); (-4, 3)].
Lemma widths_proper : proper_limits widths.
Proof. split; [reflexivity|]. repeat constructor; cbn; lia. Qed.
Definition meters (n : Z) : uunit := Some (1%R, [n; 0; 0; 0; 0; 0; 0; 0; 0; 0]).
Definition mm : uunit := Some ((/ 1000)%R, [1; 0; 0; 0; 0; 0; 0; 0; 0; 0]).
Definition second : uunit := Some (1%R, [0; 0; 1; 0; 0; 0; 0; 0; 0; 0]).
Definition rad : uunit := Some (1%R, [0; 0; 0; 0; 0; 0; 0; 0; 0; 1]).
Definition deg : uunit := Some ((PI / 180)%R, [0; 0; 0; 0; 0; 0; 0; 0; 0; 1]).
Ltac proper_tac := split; [cbn; lra|repeat constructor; cbn; lia].
Lemma meters_proper n : -8 <= n <= 7 -> proper_unit widths (meters n).
Proof. intros Hn. proper_tac. Qed.
Lemma second_proper : proper_unit widths second. Proof. proper_tac. Qed.
Lemma mm_proper : proper_unit widths mm. Proof. proper_tac. Qed.
Lemma meters_ne_none n : meters n <> none. Proof. discriminate. Qed.

(** ** addition, subtraction, modulo: exactly for equal units *)
Theorem C47_add : forall a b, (unit_same a b = Ok a <-> a = b) /\ (unit_same a b = Throw UnitError <-> a <> b).
Proof.
  intros a b. split.
  - rewrite unit_same_iff. tauto.
  - split; [|apply unit_same_fails]. intros E C. subst b. unfold unit_same in E. rewrite unit_eqb_refl in E. discriminate.
Qed.
(** none is compatible only with none *)
Theorem C47_none : forall lims op a, a <> none -> bop_unit lims op a none = Throw UnitError /\ bop_unit lims op none a = Throw UnitError.
Proof.
  intros lims op a N. destruct a as [p|]; [|contradiction N; reflexivity]. destruct op; split; reflexivity.
Qed.
Theorem C47_none_none : forall lims op, bop_unit lims op none none = Ok none.
Proof. intros lims []; reflexivity. Qed.

(** ** multiplication and division *)
Theorem C47_defined : forall lims a b, proper_limits lims -> proper_unit lims a -> proper_unit lims b -> (exists u, unit_mul lims a b = Ok u) <->
  match a, b with Some (_, es), Some (_, es') => forall i l, nth_error lims i = Some l -> fst l <= nth i es 0 + nth i es' 0 <= snd l | None, None => True | _, _ => False end.
Proof.
  intros lims a b L A B. rewrite mul_ok_iff by assumption. destruct a as [[m es]|], b as [[m' es']|]; try reflexivity.
  pose proof (proper_len lims L _ _ A) as LA. pose proof (proper_len lims L _ _ B) as LB. destruct L as [L _].
  assert (N : forall i, nth i (combine_with Z.add es es') 0 = nth i es 0 + nth i es' 0) by (intros i; apply cw_nth; [reflexivity|congruence]).
  assert (Len : length lims = length (combine_with Z.add es es')) by (rewrite cw_length by congruence; congruence).
  setoid_rewrite <- N. clear - Len. revert Len. generalize (combine_with Z.add es es') as l. induction lims as [|p ls IH]; intros [|e l] Len; try discriminate.
  - split; [intros _ [|i] p C; discriminate|constructor].
  - split.
    + intros F [|i] q E; inversion F as [|? ? ? ? P Q]; subst; cbn in *; [injection E as <-; exact P|]. injection Len as Len. apply (proj1 (IH l Len) Q i q E).
    + intros Q. constructor; [exact (Q 0%nat p eq_refl)|]. injection Len as Len. apply (IH l Len). intros i q E. exact (Q (S i) q E).
Qed.
Theorem C47_commutative : forall lims a b, proper_limits lims -> proper_unit lims a -> proper_unit lims b -> unit_mul lims a b = unit_mul lims b a.
Proof. intros lims a b L. apply mul_comm. exact L. Qed.
Theorem C47_associative : forall lims a b c ab bc, proper_limits lims -> proper_unit lims a -> proper_unit lims b -> proper_unit lims c ->
  unit_mul lims a b = Ok ab -> unit_mul lims b c = Ok bc -> unit_mul lims ab c = unit_mul lims a bc.
Proof. intros lims a b c ab bc L. apply mul_assoc. exact L. Qed.
Theorem C47_identity : forall lims a, proper_limits lims -> proper_unit lims a -> a <> none -> unit_mul lims a one = Ok a /\ unit_mul lims one a = Ok a /\ unit_div lims a a = Ok one.
Proof. intros lims a L A N. destruct (mul_one lims L a A N). repeat split; try assumption. apply div_self; assumption. Qed.
Theorem C47_inverse : forall lims a b u, proper_limits lims -> proper_unit lims a -> proper_unit lims b ->
  (unit_mul lims a b = Ok u -> unit_div lims u b = Ok a) /\ (unit_div lims a b = Ok u -> unit_mul lims u b = Ok a).
Proof. intros lims a b u L A B. split; intros E; [eapply mul_div|eapply div_mul]; eassumption. Qed.
Theorem C47_closed : forall lims op a b u, proper_limits lims -> proper_unit lims a -> proper_unit lims b -> bop_unit lims op a b = Ok u -> proper_unit lims u.
Proof.
  intros lims op a b u L A B E. destruct op; cbn [bop_unit] in E; try (apply unit_same_iff in E; destruct E as [_ ->]; exact A).
  - exact (mul_proper lims a b u A B E).
  - exact (div_proper lims a b u A B E).
  - exact (div_proper lims a b u A B E).
Qed.
(** intermediate overflow: not associative without the conditions *)
Theorem C47_associative_refuted : ~ (forall a b c, proper_unit widths a -> proper_unit widths b -> proper_unit widths c ->
  (do u <- unit_mul widths a b; unit_mul widths u c) = (do u <- unit_mul widths b c; unit_mul widths a u)).
Proof.
  intros C. specialize (C (meters 7) (meters 1) (meters (-1)) ltac:(apply meters_proper; lia) ltac:(apply meters_proper; lia) ltac:(apply meters_proper; lia)).
  unfold meters in C. rewrite !mul_some in C. cbn in C. discriminate C.
Qed.
(** dimensionless is not neutral for none, and none divided by itself is not dimensionless *)
Theorem C47_identity_refuted : unit_mul widths none one = Throw UnitError /\ unit_div widths none none = Ok none /\ none <> one.
Proof. split; [reflexivity|]. split; [reflexivity|discriminate]. Qed.

(** ** roots and powers *)
Theorem C47_sqrt : forall lims a, proper_limits lims -> proper_unit lims a ->
  ((exists r, unit_sqrt a = Ok r) <-> match a with None => True | Some (_, es) => Forall (fun e => exists k, e = 2 * k) es end) /\
  (forall r, unit_sqrt a = Ok r -> unit_mul lims r r = Ok a) /\ (forall s, unit_mul lims a a = Ok s -> unit_sqrt s = Ok a).
Proof. intros lims a L A. split; [eapply sqrt_ok; eassumption|]. split; intros; [eapply sqrt_square|eapply square_sqrt]; eassumption. Qed.
Theorem C47_pow : forall lims a, proper_limits lims -> proper_unit lims a -> unit_pow lims a 1 = Ok a /\ (a <> none -> unit_pow lims a 0 = Ok one) /\
  (forall n k an ak, - 2 ^ 30 <= n < 2 ^ 30 -> - 2 ^ 30 <= k < 2 ^ 30 -> unit_pow lims a n = Ok an -> unit_pow lims a k = Ok ak -> unit_mul lims an ak = unit_pow lims a (n + k)).
Proof. intros lims a L A. split; [apply pow_one; assumption|]. split; [apply pow_zero; assumption|]. intros. apply pow_add; assumption. Qed.
(** the power is cut to 32 bits: the 4294967298th power of a metre is a square metre *)
Theorem C47_pow_refuted : unit_pow widths (meters 1) (2 ^ 32 + 2) = Ok (meters 2) /\ unit_pow widths (meters 1) 8 = Throw UnitError.
Proof.
  split; [rewrite (Z.add_comm (2 ^ 32)), pow_wraps|]; unfold meters; rewrite pow_some; cbn; [|reflexivity]. apply f_equal, f_equal. apply injective_projections; cbn; [apply pow1|reflexivity].
Qed.

(** ** comparison and the like *)
Theorem C47_compare : forall a b u, compare_unit a b = Ok u <-> a = b /\ u = none.
Proof.
  intros a b u. unfold compare_unit, expect_equals. destruct (unit_eqb a b) eqn:E; cbn [bind].
  - apply unit_eqb_iff in E. split; [intros C; injection C as <-; auto|intros [_ ->]; reflexivity].
  - split; [discriminate|]. intros [C _]. apply unit_eqb_iff in C. congruence.
Qed.
Theorem C47_compare_fails : forall a b x y, a <> b -> less_data (a, x) (b, y) = Throw UnitError.
Proof.
  intros a b x y N. unfold less_data, compare_unit, expect_equals. cbn [fst snd]. destruct (unit_eqb a b) eqn:E; [apply unit_eqb_iff in E; contradiction|reflexivity].
Qed.
Theorem C47_logical : forall a b u, logical_unit a b = Ok u <-> a = none /\ b = none /\ u = none.
Proof.
  intros a b u. unfold logical_unit, expect_equals. destruct a as [p|]; [split; [discriminate|intros [C _]; discriminate]|]. destruct b as [q|]; [split; [discriminate|intros (_ & C & _); discriminate]|].
  cbn. split; [intros C; injection C as <-; auto|intros (_ & _ & ->); reflexivity].
Qed.
Theorem C47_where : forall c x y u, where_unit c x y = Ok u <-> c = none /\ x = y /\ u = x.
Proof.
  intros c x y u. unfold where_unit, expect_equals. destruct c as [p|]; [split; [discriminate|intros [C _]; discriminate]|]. cbn [unit_eqb none bind]. destruct (unit_eqb x y) eqn:E; cbn [bind].
  - apply unit_eqb_iff in E. split; [intros C; injection C as <-; auto|intros (_ & _ & ->); reflexivity].
  - split; [discriminate|]. intros (_ & C & _). apply unit_eqb_iff in C. congruence.
Qed.
(** isclose: all of [a], [b], [atol] with the same unit, [rtol] dimensionless (or none if they are none) *)
Theorem C47_isclose : forall lims a b rtol atol u, proper_limits lims -> proper_unit lims b -> isclose_unit lims a b rtol atol = Ok u <->
  a = b /\ atol = b /\ rtol = (match b with None => none | Some _ => one end) /\ u = none.
Proof.
  intros lims a b rtol atol u L B. unfold isclose_unit.
  assert (Q : forall x y (k : res uunit), (do _ <- expect_equals x y; k) = Ok u <-> x = y /\ k = Ok u).
  { intros x y k. unfold expect_equals. destruct (unit_eqb x y) eqn:E; cbn [bind]; [apply unit_eqb_iff in E; tauto|]. split; [discriminate|]. intros [C _]. apply unit_eqb_iff in C. congruence. }
  rewrite Q. split.
  - intros [<- E]. destruct (unit_eqb atol none) eqn:N.
    + apply unit_eqb_iff in N. subst atol. destruct b as [p|]; [discriminate E|]. cbn in E. rewrite Q in E. destruct E as [-> E]. rewrite Q in E. destruct E as [_ E]. injection E as <-. auto.
    + destruct b as [p|]; [|discriminate E]. destruct (mul_one lims L (Some p) B ltac:(discriminate)) as [_ M]. rewrite M in E. cbn [bind] in E.
      destruct (unit_same atol (Some p)) as [t|e|] eqn:S; try discriminate E. apply unit_same_iff in S. destruct S as [-> ->]. cbn [bind] in E. rewrite Q in E. destruct E as [-> E]. rewrite Q in E. destruct E as [_ E]. injection E as <-. auto.
  - intros (-> & -> & -> & ->). destruct b as [p|].
    + split; [reflexivity|]. destruct (mul_one lims L (Some p) B ltac:(discriminate)) as [_ M]. rewrite M. cbn [bind]. unfold unit_same. rewrite unit_eqb_refl. cbn [bind]. rewrite !Q. auto.
    + split; reflexivity.
Qed.

(** ** the units of the elementary functions *)
Theorem C47_functions : forall a u, (trigonometric rad deg a = Ok u <-> (a = rad \/ a = deg) /\ u = one) /\ (inverse_trigonometric rad a = Ok u <-> a = one /\ u = rad) /\
  (hyperbolic a = Ok u <-> a = one /\ u = one) /\ (dimensionless_unit a = Ok u <-> a = one /\ u = one) /\ (forall b, unit_atan2 rad a b = Ok u <-> a = b /\ a <> none /\ u = rad).
Proof.
  intros a u. assert (Q : forall x y (v : uunit) (e : exn), (if unit_eqb x y then Ok v else Throw e) = Ok u <-> x = y /\ u = v).
  { intros x y v e. destruct (unit_eqb x y) eqn:E; [apply unit_eqb_iff in E; split; [intros C; injection C as <-; auto|intros [_ ->]; reflexivity]|]. split; [discriminate|]. intros [C _]. apply unit_eqb_iff in C. congruence. }
  split; [|split; [apply Q|split; [apply Q|split]]].
  - unfold trigonometric. destruct (unit_eqb a rad) eqn:E; cbn [orb].
    + apply unit_eqb_iff in E. split; [intros C; injection C as <-; auto|intros [_ ->]; reflexivity].
    + rewrite Q. split; [tauto|]. intros [[C|C] ?]; [apply unit_eqb_iff in C; congruence|auto].
  - unfold dimensionless_unit, expect_equals. destruct (unit_eqb one a) eqn:E; cbn [bind].
    + apply unit_eqb_iff in E. split; [intros C; injection C as <-; auto|intros [_ ->]; reflexivity].
    + split; [discriminate|]. intros [C _]. symmetry in C. apply unit_eqb_iff in C. congruence.
  - intros b. unfold unit_atan2. destruct a as [p|], b as [q|]; cbn [expect_not_none has_value bind]; try (split; [discriminate|intros (C & N & _); unfold none in N; congruence]).
    rewrite Q. split; [intros [C ->]; split; [congruence|]; split; [discriminate|reflexivity]|intros (C & _ & ->); split; congruence].
Qed.

(** ** data: the meaning of the result is the operation on the meanings, whatever the units *)
Theorem C47_meaning : forall lims op a b v, op <> FloorDiv -> proper_limits lims -> proper_unit lims (fst a) -> proper_unit lims (fst b) -> snd b <> 0%R -> transform_bop lims op a b = Ok v ->
  same (meaning v) (match op with Add => qadd | Sub => qsub | Mul => qmul | Div => qdiv | FloorDiv => qfloordiv | Mod => qmod end (meaning a) (meaning b)).
Proof. intros lims op a b v N L. apply bop_meaning; assumption. Qed.
(** addition and comparison are refused for incommensurable quantities, and never compare numbers of different scale *)
Theorem C47_commensurable : forall lims op a b v, op = Add \/ op = Sub \/ op = Mod -> transform_bop lims op a b = Ok v -> commensurable (meaning a) (meaning b).
Proof.
  intros lims op [a x] [b y] v O E. unfold transform_bop in E. cbn [fst snd] in E. replace (bop_unit lims op a b) with (unit_same a b) in E by (destruct O as [->|[->| ->]]; reflexivity).
  destruct (unit_same a b) eqn:S; try discriminate E. apply unit_same_iff in S. destruct S as [<- _]. unfold meaning. cbn [fst snd]. destruct a as [[m es]|]; cbn; auto.
Qed.
Theorem C47_less : forall lims a b r, proper_unit lims (fst a) -> less_data a b = Ok r ->
  commensurable (meaning a) (meaning b) /\ (r = true <-> (number (meaning a) < number (meaning b))%R).
Proof.
  intros lims [a x] [b y] r A E. unfold less_data in E. cbn [fst snd] in *. destruct (compare_unit a b) eqn:S; try discriminate E. apply C47_compare in S. destruct S as [<- _]. cbn [bind] in E. injection E as <-.
  unfold meaning. cbn [fst snd]. destruct a as [[m es]|]; cbn [commensurable number].
  - split; [auto|]. destruct A as [A _]. destruct (Rlt_dec x y) as [H'|H']; split; intros; try reflexivity; try discriminate; [apply Rmult_lt_compat_r; assumption|]. exfalso. apply H'. eapply Rmult_lt_reg_r; eassumption.
  - split; [exact I|]. destruct (Rlt_dec x y); split; intros; try reflexivity; try discriminate; auto; contradiction.
Qed.
Theorem C47_pow_meaning : forall lims a x n u, proper_unit lims a -> - 2 ^ 31 <= n < 2 ^ 31 -> x <> 0%R -> unit_pow lims a n = Ok u -> same (meaning (u, powerRZ x n)) (qpow n (meaning (a, x))).
Proof.
  intros lims a x n u A Hn Hx E. unfold meaning. cbn [fst snd]. destruct a as [[m es]|]; [|injection E as <-; reflexivity].
  rewrite pow_some, to_int_small in E by exact Hn. destruct (in_limits lims _); [|discriminate]. injection E as <-. cbn [same qpow ppow fst snd]. destruct A as [A _]. split.
  - symmetry. apply powerRZ_mult.
  - intros i. apply (map_nth0 (fun e => e * n)). reflexivity.
Qed.
Theorem C47_sqrt_meaning : forall lims a x v, proper_limits lims -> proper_unit lims a -> (0 <= x)%R -> sqrt_data (a, x) = Ok v -> same (qmul (meaning v) (meaning v)) (meaning (a, x)).
Proof.
  intros lims a x v L A Hx E. unfold sqrt_data in E. cbn [fst snd] in E. destruct (unit_sqrt a) as [r|e|] eqn:S; try discriminate E. cbn [bind] in E. injection E as <-.
  unfold meaning. cbn [fst snd]. destruct a as [[m es]|].
  - unfold unit_sqrt, psqrt_error, none in S. cbn [unit_eqb underlying bind snd] in S. destruct (forallb Z.even es) eqn:F; [|discriminate S]. cbn [negb] in S. injection S as <-. destruct A as [A _]. cbn [same qmul lift psqrt fst snd]. split.
    + replace (sqrt x * sqrt m * (sqrt x * sqrt m))%R with ((sqrt x * sqrt x) * (sqrt m * sqrt m))%R by ring. rewrite !sqrt_sqrt by lra. reflexivity.
    + intros i. rewrite (map_nth0 (fun e => e / 2)) by reflexivity. rewrite forallb_forall in F. destruct (Nat.lt_ge_cases i (length es)) as [Hi|Hi].
      * specialize (F (nth i es 0) (nth_In _ _ Hi)). apply Z.even_spec in F. destruct F as [k ->]. rewrite Z.mul_comm, Z.div_mul by lia. lia.
      * rewrite nth_overflow by exact Hi. reflexivity.
  - injection S as <-. cbn. apply sqrt_sqrt. exact Hx.
Qed.
Theorem C47_sin : forall lims a x v, proper_unit lims a -> sin_data rad deg (a, x) = Ok v ->
  v = (one, sin (number (meaning (a, x)))) /\ commensurable (meaning (a, x)) (meaning (rad, 0%R)).
Proof.
  intros lims a x v A E. unfold sin_data in E. cbn [fst snd] in E. destruct (unit_eqb rad a) eqn:Q.
  - apply unit_eqb_iff in Q. subst a. unfold trigonometric in E. rewrite unit_eqb_refl in E. cbn [bind orb] in E. injection E as <-. split; [|cbn; auto]. cbn. do 2 f_equal. lra.
  - destruct a as [[m es]|]; [|discriminate E]. change (match rad with Some r => _ | None => _ end) with (if list_eq_dec Z.eq_dec es [0; 0; 0; 0; 0; 0; 0; 0; 0; 1] then Ok (x * (m / 1))%R else Throw UnitError) in E.
    destruct (list_eq_dec Z.eq_dec es _) as [->|]; [|discriminate E]. unfold trigonometric in E. rewrite unit_eqb_refl in E. cbn [bind orb] in E. injection E as <-. split; [|cbn; auto]. cbn. do 2 f_equal. lra.
Qed.
(** floor division keeps the unit of the quotient, but takes the floor in the given units: 7 m // 2 mm is 3 m/mm = 3000,
    not 3500 *)
Theorem C47_floor_divide_refuted : ~ (forall a b v, proper_unit widths (fst a) -> proper_unit widths (fst b) -> snd b <> 0%R -> transform_bop widths FloorDiv a b = Ok v ->
  same (meaning v) (qfloordiv (meaning a) (meaning b))).
Proof.
  intros C. assert (F1 : Zfloor (7 / 2) = 3) by (apply Zfloor_imp; cbn; lra). assert (F2 : Zfloor (7 * 1 / (2 * / 1000)) = 3500) by (apply Zfloor_imp; cbn; lra).
  assert (E : transform_bop widths FloorDiv (meters 1, 7%R) (mm, 2%R) = Ok (Some ((1 / / 1000)%R, repeat 0 10), 3%R)).
  { unfold transform_bop. cbn [fst snd bop_unit bop_val]. rewrite F1. unfold meters, mm. rewrite div_some. cbn. reflexivity. }
  specialize (C (meters 1, 7%R) (mm, 2%R) _ (meters_proper 1 ltac:(lia)) mm_proper ltac:(cbn; lra) E). unfold meaning, meters, mm in C. cbn [fst snd same qfloordiv lift] in C. rewrite F2 in C. destruct C as [C _]. lra.
Qed.

(** ** in-place operations: all or nothing *)
Lemma bop_outcome lims op a b : (exists u, bop_unit lims op a b = Ok u) \/ bop_unit lims op a b = Throw UnitError.
Proof.
  assert (S : (exists u, unit_same a b = Ok u) \/ unit_same a b = Throw UnitError) by (unfold unit_same; destruct (unit_eqb a b); eauto).
  assert (M : (exists u, unit_mul lims a b = Ok u) \/ unit_mul lims a b = Throw UnitError).
  { destruct a as [p|], b as [q|]; [|right; reflexivity|right; reflexivity|left; exists none; reflexivity]. rewrite mul_some. destruct (in_limits _ _); eauto. }
  assert (D : (exists u, unit_div lims a b = Ok u) \/ unit_div lims a b = Throw UnitError).
  { destruct a as [p|], b as [q|]; [|right; reflexivity|right; reflexivity|left; exists none; reflexivity]. rewrite div_some. destruct (in_limits _ _); eauto. }
  destruct op; assumption.
Qed.
Theorem C47_in_place : forall lims op slice a b s r, transform_in_place_bop lims op slice a b = (s, r) ->
  (r = Ok tt /\ transform_bop lims op a b = Ok s) \/ (r = Throw UnitError /\ s = a /\ (bop_unit lims op (fst a) (fst b) = Throw UnitError \/ slice = true /\ exists u, bop_unit lims op (fst a) (fst b) = Ok u /\ u <> fst a)).
Proof.
  intros lims op slice a b s r E. unfold transform_in_place_bop, transform_bop in *. destruct (bop_unit lims op (fst a) (fst b)) as [u|e|] eqn:B; cbn [bind].
  - destruct (unit_eqb (fst a) u) eqn:Q; cbn [negb andb] in E; [injection E as <- <-; auto|]. destruct slice; injection E as <- <-; [|auto].
    right. split; [reflexivity|]. split; [reflexivity|]. right. split; [reflexivity|]. exists u. split; [reflexivity|]. intros C. symmetry in C. apply unit_eqb_iff in C. congruence.
  - destruct (bop_outcome lims op (fst a) (fst b)) as [[u C]|C]; rewrite C in B; [discriminate B|]. injection B as <-. injection E as <- <-. auto.
  - destruct (bop_outcome lims op (fst a) (fst b)) as [[u C]|C]; rewrite C in B; discriminate B.
Qed.
(** the power is not: when the unit of the result does not exist, the output has lost its unit and has new elements *)
Theorem C47_pow_in_place_refuted : ~ (forall (v v' : uunit * Z) f e x, pow_handle_unit widths f false v one true e = (v', Throw x) -> v' = v).
Proof.
  intros C. specialize (C (meters 1, 2) (one, 256) (fun x => x ^ 8) (EInt 8) UnitError).
  assert (E : pow_handle_unit widths (fun x => x ^ 8) false (meters 1, 2) one true (EInt 8) = ((one, 256), Throw UnitError)).
  { unfold pow_handle_unit. rewrite unit_eqb_refl. cbn [negb fst snd]. replace (unit_eqb (meters 1) one) with false.
    - cbn [pow_unit]. unfold meters. rewrite pow_some. reflexivity.
    - symmetry. destruct (unit_eqb (meters 1) one) eqn:Q; [|reflexivity]. apply unit_eqb_iff in Q. discriminate Q. }
  specialize (C E). discriminate C.
Qed.

(** ** an operand with variances and itself: the same unit as in general, except for none *)
Theorem C47_self : forall lims a, proper_limits lims -> proper_unit lims a -> self_add_unit lims a = unit_same a a /\
  (a <> none -> self_mul_unit lims a = unit_mul lims a a /\ self_div_unit lims a = unit_div lims a a).
Proof.
  intros lims a L A. split.
  - unfold self_add_unit, factor_unit, unit_same. rewrite unit_eqb_refl. destruct a as [p|]; [|reflexivity]. cbn [unit_eqb none]. apply (mul_one lims L (Some p) A). discriminate.
  - intros N. assert (FU : factor_unit a = one) by (unfold factor_unit; destruct a; [reflexivity|contradiction N; reflexivity]). unfold self_mul_unit, self_div_unit, pow_new_unit, pow_handle_unit. rewrite FU, unit_eqb_refl. cbn [negb fst snd].
    assert (P2 : pow_unit lims a (EDouble (f_of_Z 2)) = unit_mul lims a a).
    { cbn [pow_unit]. replace (f_to_Z 64 (f_of_Z 2)) with (Ok 2) by (vm_compute; reflexivity). cbn [bind]. replace (Beqb (f_of_Z 2) (f_of_Z 2)) with true by (vm_compute; reflexivity).
      symmetry. pose proof (pow_one lims a A) as P1. exact (pow_add lims a 1 1 a a A ltac:(lia) ltac:(lia) P1 P1). }
    assert (P0 : pow_unit lims a (EDouble (f_of_Z 0)) = Ok one).
    { cbn [pow_unit]. replace (f_to_Z 64 (f_of_Z 0)) with (Ok 0) by (vm_compute; reflexivity). cbn [bind]. replace (Beqb (f_of_Z 0) (f_of_Z 0)) with true by (vm_compute; reflexivity). apply pow_zero; assumption. }
    rewrite P2, P0, (div_self lims L a A N). destruct (unit_eqb a one) eqn:Q.
    + apply unit_eqb_iff in Q. subst a. destruct (mul_one lims L one A N) as [M _]. rewrite M. split; reflexivity.
    + destruct (unit_mul lims a a); split; reflexivity.
Qed.
Theorem C47_self_refuted : self_mul_unit widths none = Throw UnitError /\ unit_mul widths none none = Ok none.
Proof. split; reflexivity. Qed.

(** ** cases *)
Example C47_case : unit_mul widths (meters 2) second = Ok (Some ((1 * 1)%R, [2; 0; 1; 0; 0; 0; 0; 0; 0; 0])) /\ unit_mul widths (meters 7) (meters 1) = Throw UnitError /\
  (exists r, unit_sqrt (meters 2) = Ok r) /\ unit_sqrt second = Throw UnitError /\ unit_same (meters 1) mm = Throw UnitError.
Proof.
  split; [unfold meters, second; rewrite mul_some; reflexivity|]. split; [unfold meters; rewrite mul_some; reflexivity|]. split; [eexists; reflexivity|]. split; [reflexivity|].
  apply unit_same_fails. intros C. injection C as C. lra.
Qed.
Example C47_meaning_case : exists v, transform_bop widths Div (meters 1, 7%R) (mm, 2%R) = Ok v /\ same (meaning v) (qdiv (meaning (meters 1, 7%R)) (meaning (mm, 2%R))) /\ number (meaning v) = 3500%R.
Proof.
  assert (E : transform_bop widths Div (meters 1, 7%R) (mm, 2%R) = Ok (Some ((1 / / 1000)%R, repeat 0 10), (7 / 2)%R)) by (unfold transform_bop; cbn [fst snd bop_unit bop_val]; unfold meters, mm; rewrite div_some; reflexivity).
  eexists. split; [exact E|]. split; [apply (C47_meaning widths Div (meters 1, 7%R) (mm, 2%R)); [discriminate|exact widths_proper|apply meters_proper; lia|exact mm_proper|cbn; lra|exact E]|]. cbn. lra.
Qed.
Example C47_associative_case : exists ab bc, unit_mul widths (meters 2) (meters 3) = Ok ab /\ unit_mul widths (meters 3) second = Ok bc /\
  unit_mul widths ab second = unit_mul widths (meters 2) bc /\ unit_mul widths ab second <> Throw UnitError.
Proof.
  do 2 eexists. assert (E1 : unit_mul widths (meters 2) (meters 3) = Ok (Some ((1 * 1)%R, [5; 0; 0; 0; 0; 0; 0; 0; 0; 0]))) by (unfold meters; rewrite mul_some; reflexivity).
  assert (E2 : unit_mul widths (meters 3) second = Ok (Some ((1 * 1)%R, [3; 0; 1; 0; 0; 0; 0; 0; 0; 0]))) by (unfold meters, second; rewrite mul_some; reflexivity).
  split; [exact E1|]. split; [exact E2|]. split; [|unfold second; rewrite mul_some; discriminate].
  apply (C47_associative widths (meters 2) (meters 3) second); try assumption; [exact widths_proper|apply meters_proper; lia|apply meters_proper; lia|exact second_proper].
Qed.
Example C47_isclose_case : isclose_unit widths (meters 1) (meters 1) one (meters 1) = Ok none.
Proof. apply C47_isclose; [exact widths_proper|apply meters_proper; lia|auto]. Qed.
Print Assumptions C47_meaning.
Print Assumptions C47_associative.
Print Assumptions C47_self.
Print Assumptions C47_isclose.
