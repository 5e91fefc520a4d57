(** * C54: conversions between dtypes keep numbers where they can, and order; promotion for binning *)
From Coq Require Import Reals Lra.
From Flocq Require Import Core BinarySingleNaN.
From Verif Require Import Base Float Astype_Model Astype_Spec Astype_Proofs.
Local Open Scope R_scope.

Definition is_float (t : dtype) : Prop := t = Double \/ t = Float.
Definition is_int (t : dtype) : Prop := t = Int64 \/ t = Int32.
Definition round_t (t : dtype) (x : ext) : ext := match t with Double => @ext_round 53 1024 x | Float => @ext_round 24 128 x | _ => x end.
Lemma cast_number t v w : is_float t -> cast t v = Ok w -> number w = option_map (round_t t) (number v).
Proof.
  intros [->| ->]; destruct v as [x|x|z|z|b|n i]; cbn [cast]; intros E; try discriminate E; injection E as <-; cbn [number round_t option_map];
    try apply reround_number; try apply from_Z_number; rewrite from_Z_number; destruct b; reflexivity.
Qed.
Lemma float_fin {p e} (x : binary_float p e) r : float_number x = Some (Fin r) -> B2R x = r /\ is_finite x = true.
Proof. destruct x as [s|[]| |s m ex Hb]; cbn [float_number]; intros E; try discriminate E; injection E as <-; split; reflexivity. Qed.

(** ** To floating point: the nearest number of the type; infinity only beyond all of them *)
Theorem C54_nearest t v w r : is_float t -> cast t v = Ok w -> number v = Some (Fin r) ->
  (exists s, number w = Some (Fin s) /\ forall u q, type_of u = t -> number u = Some (Fin q) -> Rabs (s - r) <= Rabs (q - r)) \/
  (number w = Some Plus /\ forall u q, type_of u = t -> number u = Some (Fin q) -> q <= r) \/
  (number w = Some Minus /\ forall u q, type_of u = t -> number u = Some (Fin q) -> r <= q).
Proof.
  intros T C N. rewrite (cast_number t v w T C), N. cbn [option_map].
  assert (G : forall p e (Hp : Prec_gt_0 p) (He : Prec_lt_emax p e),
    (exists s, Some (@ext_round p e (Fin r)) = Some (Fin s) /\ forall (u : binary_float p e) q, float_number u = Some (Fin q) -> Rabs (s - r) <= Rabs (q - r)) \/
    (Some (@ext_round p e (Fin r)) = Some Plus /\ forall (u : binary_float p e) q, float_number u = Some (Fin q) -> q <= r) \/
    (Some (@ext_round p e (Fin r)) = Some Minus /\ forall (u : binary_float p e) q, float_number u = Some (Fin q) -> r <= q)).
  { intros p e Hp He. cbn [ext_round]. destruct (Rlt_bool_spec (Rabs (@near p e r)) (bpow radix2 e)) as [A|A].
    - left. eexists. split; [reflexivity|]. intros u q E. apply float_fin in E. destruct E as [<- _]. apply near_closest.
    - right. pose proof (fexp_correct p e Hp) as Vf.
      assert (Q : forall u : binary_float p e, @near p e (B2R u) = B2R u) by (intros u; unfold near; apply round_generic; [apply valid_rnd_N|apply generic_format_B2R]).
      assert (Mo : forall x y, x <= y -> @near p e x <= @near p e y) by (intros x y L; unfold near; apply round_le; [exact Vf|apply valid_rnd_N|exact L]).
      assert (Z0 : @near p e 0 = 0) by (unfold near; apply round_0, valid_rnd_N).
      destruct (Rlt_bool_spec r 0) as [B|B]; [right|left]; (split; [reflexivity|]); intros u q E; apply float_fin in E; destruct E as [<- _]; pose proof (abs_B2R_lt_emax p e u) as L; apply Rabs_def2 in L.
      + destruct (Rle_or_lt r (B2R u)) as [D|D]; [exact D|exfalso]. pose proof (Mo (B2R u) r ltac:(lra)) as D'. rewrite Q in D'. pose proof (Mo r 0 ltac:(lra)) as D''. rewrite Z0 in D''. rewrite Rabs_left1 in A by exact D''. lra.
      + destruct (Rle_or_lt (B2R u) r) as [D|D]; [exact D|exfalso]. pose proof (Mo r (B2R u) ltac:(lra)) as D'. rewrite Q in D'. pose proof (Mo 0 r ltac:(lra)) as D''. rewrite Z0 in D''. rewrite Rabs_pos_eq in A by exact D''. lra. }
  destruct T as [->| ->]; cbn [round_t]; [destruct (G 53%Z 1024%Z _ _) as [(s & E & Q)|[(E & Q)|(E & Q)]]|destruct (G 24%Z 128%Z _ _) as [(s & E & Q)|[(E & Q)|(E & Q)]]].
  all: try (left; exists s; split; [exact E|]; intros [x|x|z|z|b|n i] q U; try discriminate U; apply Q).
  all: try (right; left; split; [exact E|]; intros [x|x|z|z|b|n i] q U; try discriminate U; apply Q).
  all: try (right; right; split; [exact E|]; intros [x|x|z|z|b|n i] q U; try discriminate U; apply Q).
Qed.
Theorem C54_special t v w : is_float t -> cast t v = Ok w -> (number v = None -> number w = None) /\ (number v = Some Plus -> number w = Some Plus) /\ (number v = Some Minus -> number w = Some Minus).
Proof. intros T C. rewrite (cast_number t v w T C). destruct T as [->| ->]; split; [|split| |split]; intros ->; reflexivity. Qed.

(** ** To integers: towards zero; undefined unless the result exists *)
Lemma to_Z_number {p e} {Hp : Prec_gt_0 p} {He : Prec_lt_emax p e} bits (x : binary_float p e) z : to_Z bits x = Ok z <-> exists r, float_number x = Some (Fin r) /\ z = Ztrunc r /\ (- 2 ^ (bits - 1) <= z < 2 ^ (bits - 1))%Z.
Proof.
  unfold to_Z, in_range. rewrite trunc_val. destruct x as [s|s| |s m ex Hb]; cbn [is_finite andb float_number].
  2, 3: split; [discriminate|]; intros (r & E & _); try destruct s; discriminate E.
  all: match goal with |- _ <-> exists r, Some (Fin ?y) = _ /\ _ => set (q := y) end.
  all: split; [intros E|intros (r & E & -> & B)].
  2, 4: injection E as <-; rewrite (proj2 (Z.leb_le _ _) (proj1 B)), (proj2 (Z.ltb_lt _ _) (proj2 B)); reflexivity.
  all: match type of E with (if ?b then _ else _) = _ => destruct b eqn:B end; try discriminate E; injection E as <-; eexists; split; [reflexivity|]; split; [reflexivity|]; apply andb_prop in B; destruct B as [B1 B2]; split; [apply Z.leb_le|apply Z.ltb_lt]; assumption.
Qed.
Lemma to_Z_total {p e} {Hp : Prec_gt_0 p} {He : Prec_lt_emax p e} bits (x : binary_float p e) : to_Z bits x = Ub \/ exists z, to_Z bits x = Ok z.
Proof. unfold to_Z. destruct (is_finite x && _); eauto. Qed.
Definition towards_zero (r : R) (z : Z) : Prop := 0 <= r /\ IZR z <= r < IZR z + 1 \/ r < 0 /\ IZR z - 1 < r <= IZR z.
Lemma trunc_iff r z : towards_zero r z <-> z = Ztrunc r.
Proof.
  unfold towards_zero. destruct (Rle_or_lt 0 r) as [P|P].
  - rewrite Ztrunc_floor by exact P. split.
    + intros [[_ Q]|[Q _]]; [|lra]. symmetry. apply Zfloor_imp. rewrite plus_IZR. exact Q.
    + intros ->. left. split; [exact P|]. split; [apply Zfloor_lb|apply Zfloor_ub].
  - rewrite Ztrunc_ceil by lra. split.
    + intros [[Q _]|[_ Q]]; [lra|]. symmetry. apply Zceil_imp. rewrite minus_IZR. exact Q.
    + intros ->. right. split; [exact P|]. split; [|apply Zceil_ub]. unfold Zceil. rewrite opp_IZR. pose proof (Zfloor_ub (- r)). lra.
Qed.
Theorem C54_to_int t v : is_int t -> is_float (type_of v) ->
  (forall w, cast t v = Ok w <-> exists r z, number v = Some (Fin r) /\ towards_zero r z /\ w = (if dtype_eqb t Int64 then VInt64 z else VInt32 z) /\ valid w) /\
  (cast t v = Ub \/ exists w, cast t v = Ok w).
Proof.
  intros [->| ->] F; (destruct v as [x|x|z|z|b|n i]; [| |destruct F; discriminate..]); cbn [cast dtype_eqb number].
  all: match goal with |- context [to_Z ?bits ?x] => split; [|destruct (to_Z_total bits x) as [E|[z E]]; rewrite E; cbn [bind]; eauto] end.
  all: intros w; split.
  all: try (intros E; match type of E with (do z <- ?k; _) = _ => destruct k as [z| |] eqn:K; try discriminate E end; cbn [bind] in E; injection E as <-; apply (to_Z_number _ _) in K; destruct K as (r & N & Z & B); exists r, z; split; [exact N|]; split; [apply trunc_iff; exact Z|]; split; [reflexivity|]; exact B).
  all: intros (r & z & N & T & -> & B); apply trunc_iff in T; match goal with |- context [to_Z ?bits ?x] => assert (K : to_Z bits x = Ok z) by (apply to_Z_number; exists r; split; [exact N|split; [exact T|exact B]]); rewrite K; reflexivity end.
Qed.
Theorem C54_to_bool v w : cast Bool v = Ok w -> exists b, w = VBool b /\ (b = false <-> number v = Some (Fin 0)).
Proof.
  assert (G : forall p e (x : binary_float p e), nonzero x = false <-> float_number x = Some (Fin 0)).
  { intros p e x. unfold nonzero. rewrite negb_false_iff. destruct x as [s|[]| |s m ex Hb]; cbn [float_number]; try (split; [discriminate|intros C; discriminate C]); try (split; reflexivity).
    rewrite Beqb_correct by reflexivity. cbn [B2R]. match goal with |- Req_bool ?a ?b = true <-> _ => destruct (Req_bool_spec a b) as [Q|Q] end; [rewrite Q; split; reflexivity|]. split; [discriminate|]. intros C. injection C as C. contradiction. }
  destruct v as [x|x|z|z|b|n i]; cbn [cast number]; intros E; try discriminate E; injection E as <-; eexists; (split; [reflexivity|]); try apply G.
  all: rewrite negb_false_iff, Z.eqb_eq; split; [intros ->; reflexivity|]; intros Q; injection Q as Q; apply eq_IZR; exact Q.
Qed.

(** ** Order is kept, weakly *)
Theorem C54_monotone t v v' w w' a b : t <> Bool -> (t = Int32 -> type_of v <> Int64 /\ type_of v' <> Int64) -> cast t v = Ok w -> cast t v' = Ok w' -> number v = Some a -> number v' = Some b -> ext_le a b ->
  exists a' b', number w = Some a' /\ number w' = Some b' /\ ext_le a' b'.
Proof.
  intros NB NW C C' N N' L. destruct t as [| | | | |k]; [| | | |contradiction NB; reflexivity|destruct v; discriminate C].
  1: assert (T : is_float Double) by (left; reflexivity). 2: assert (T : is_float Float) by (right; reflexivity).
  1, 2: rewrite (cast_number _ v w T C), (cast_number _ v' w' T C'), N, N'; cbn [option_map round_t]; do 2 eexists; split; [reflexivity|]; split; [reflexivity|]; apply ext_round_le; exact L.
  - assert (G : forall v w a, cast Int64 v = Ok w -> number v = Some a -> exists r, a = Fin r /\ number w = Some (Fin (IZR (Ztrunc r)))).
    { clear. intros v w a C N. destruct v as [x|x|z|z|b|n i]; cbn [cast number] in *; try discriminate C.
      1, 2: destruct (to_Z 64 x) as [z| |] eqn:K; try discriminate C; cbn [bind] in C; injection C as <-; apply (to_Z_number _ _) in K; destruct K as (r & E & -> & _); rewrite E in N; injection N as <-; eauto.
      all: injection C as <-; injection N as <-; eexists; split; [reflexivity|]; cbn [number]; try (destruct b; cbn [Z.b2z]); rewrite Ztrunc_IZR; reflexivity. }
    destruct (G v w a C N) as (r & -> & E), (G v' w' b C' N') as (r' & -> & E'). rewrite E, E'. do 2 eexists. split; [reflexivity|]. split; [reflexivity|]. cbn [ext_le] in *. apply IZR_le, Ztrunc_le, L.
  - destruct (NW eq_refl) as [W W']. assert (G : forall v w a, type_of v <> Int64 -> cast Int32 v = Ok w -> number v = Some a -> exists r, a = Fin r /\ number w = Some (Fin (IZR (Ztrunc r)))).
    { clear. intros v w a W C N. destruct v as [x|x|z|z|b|n i]; cbn [cast number] in *; try discriminate C; [| |contradiction W; reflexivity|].
      1, 2: destruct (to_Z 32 x) as [z| |] eqn:K; try discriminate C; cbn [bind] in C; injection C as <-; apply (to_Z_number _ _) in K; destruct K as (r & E & -> & _); rewrite E in N; injection N as <-; eauto.
      all: injection C as <-; injection N as <-; eexists; split; [reflexivity|]; cbn [number]; try (destruct b; cbn [Z.b2z]); rewrite Ztrunc_IZR; reflexivity. }
    destruct (G v w a W C N) as (r & -> & E), (G v' w' b W' C' N') as (r' & -> & E'). rewrite E, E'. do 2 eexists. split; [reflexivity|]. split; [reflexivity|]. cbn [ext_le] in *. apply IZR_le, Ztrunc_le, L.
Qed.

(** ** Conversions without loss, there and back *)
Definition fits (t : dtype) (v : value) : Prop :=
  match t, v with
  | Double, VInt64 z => (Z.abs z <= 2 ^ 53)%Z
  | Float, (VInt64 z | VInt32 z) => (Z.abs z <= 2 ^ 24)%Z
  | _, _ => wider (type_of v) t
  end.
Lemma from_Z_exact {p e} {Hp : Prec_gt_0 p} {He : Prec_lt_emax p e} z : (Z.abs z <= 2 ^ p)%Z -> (p + 1 < e)%Z -> float_number (from_Z z : binary_float p e) = Some (Fin (IZR z)).
Proof.
  intros B L. pose proof (Hp : (0 < p)%Z) as P. rewrite from_Z_number. f_equal. apply ext_round_exact; [apply fmt_int; [exact B|lia]|].
  rewrite <- abs_IZR. apply Rle_lt_trans with (IZR (2 ^ p)); [apply IZR_le, B|]. rewrite (IZR_Zpower radix2) by lia. apply bpow_lt. lia.
Qed.
Lemma to_from {p e} {Hp : Prec_gt_0 p} {He : Prec_lt_emax p e} bits z : (Z.abs z <= 2 ^ p)%Z -> (p + 1 < e)%Z -> (- 2 ^ (bits - 1) <= z < 2 ^ (bits - 1))%Z -> to_Z bits (from_Z z : binary_float p e) = Ok z.
Proof. intros B L R. apply (to_Z_number _ _). exists (IZR z). split; [apply from_Z_exact; assumption|]. split; [symmetry; apply Ztrunc_IZR|exact R]. Qed.
Lemma widen_exact (x : f32) : float_number (reround x : f64) = float_number x.
Proof.
  rewrite reround_number. destruct x as [s|[]| |s m ex Hb]; cbn [float_number option_map]; try reflexivity; [rewrite ext_round_0; reflexivity|]. f_equal.
  set (y := B754_finite s m ex Hb : f32). apply ext_round_exact.
  - apply (generic_inclusion_mag radix2 (SpecFloat.fexp 24 128)); [intros _; unfold SpecFloat.fexp, SpecFloat.emin; lia|]. apply generic_format_B2R.
  - apply Rlt_trans with (bpow radix2 128); [apply abs_B2R_lt_emax|apply bpow_lt; lia].
Qed.
Lemma widen_back (x : f32) : (reround (reround x : f64) : f32) = x.
Proof.
  destruct x as [s|s| |s m ex Hb]; try reflexivity. set (x := B754_finite s m ex Hb : f32).
  assert (NZ : B2R x <> 0) by (unfold x; cbn [B2R]; destruct s; cbn [cond_Zopp]; [apply Rlt_not_eq, F2R_lt_0; reflexivity|apply Rgt_not_eq, F2R_gt_0; reflexivity]).
  pose proof (widen_exact x) as E. assert (Nx : float_number x = Some (Fin (B2R x))) by reflexivity. rewrite Nx in E.
  assert (E' : float_number (reround (reround x : f64) : f32) = Some (Fin (B2R x))).
  { rewrite reround_number, E. cbn [option_map]. f_equal. apply ext_round_exact; [apply generic_format_B2R|apply abs_B2R_lt_emax]. }
  apply float_fin in E'. destruct E' as [E' F']. apply B2R_inj; [| |exact E']; [|reflexivity].
  destruct (reround (reround x : f64) : f32) as [s'|s'| |s' m' ex' Hb']; try discriminate F'; [|reflexivity]. exfalso. apply NZ. symmetry. exact E'.
Qed.
Theorem C54_exact t v : valid v -> fits t v -> exists w, cast t v = Ok w /\ type_of w = t /\ valid w /\ number w = number v /\ cast (type_of v) w = Ok v.
Proof.
  intros V F. destruct t as [| | | | |k], v as [x|x|z|z|b|n i]; cbn [fits wider type_of] in F; try contradiction; cbn [cast type_of number valid] in *.
  all: eexists; split; [reflexivity|]; split; [reflexivity|].
  - split; [exact I|]. split; [apply widen_exact|]. cbn [cast]. rewrite widen_back. reflexivity.
  - split; [exact I|]. split; [apply from_Z_exact; [exact F|lia]|]. cbn [cast]. rewrite to_from by (try exact F; try exact V; lia). reflexivity.
  - split; [exact I|]. split; [apply from_Z_exact; lia|]. cbn [cast]. rewrite to_from by (try exact V; lia). reflexivity.
  - split; [exact I|]. cbn [number cast]. split; [rewrite from_Z_exact by (destruct b; cbn; lia); destruct b; reflexivity|]. destruct b; vm_compute; reflexivity.
  - split; [exact I|]. split; [apply from_Z_exact; [exact F|lia]|]. cbn [cast]. rewrite to_from by (try exact F; try exact V; lia). reflexivity.
  - split; [exact I|]. split; [apply from_Z_exact; [exact F|lia]|]. cbn [cast]. rewrite to_from by (try exact F; try exact V; lia). reflexivity.
  - split; [exact I|]. cbn [number cast]. split; [rewrite from_Z_exact by (destruct b; cbn; lia); destruct b; reflexivity|]. destruct b; vm_compute; reflexivity.
  - cbn [valid number cast]. split; [lia|]. split; [reflexivity|]. do 2 f_equal. unfold wrap. rewrite Z.mod_small by lia. lia.
  - cbn [valid number cast]. split; [destruct b; cbn; lia|]. split; destruct b; reflexivity.
  - cbn [valid number cast]. split; [destruct b; cbn; lia|]. split; destruct b; reflexivity.
Qed.

(** ** The common dtype *)
Lemma dtype_eqb_iff a b : dtype_eqb a b = true <-> a = b.
Proof. destruct a, b; cbn [dtype_eqb]; split; intros E; try discriminate E; try reflexivity; [apply Nat.eqb_eq in E; subst; reflexivity|injection E as ->; apply Nat.eqb_refl]. Qed.
Lemma dtype_eqb_refl a : dtype_eqb a a = true. Proof. apply dtype_eqb_iff. reflexivity. Qed.
Lemma dtype_eqb_sym a b : dtype_eqb a b = dtype_eqb b a.
Proof. destruct a, b; try reflexivity. cbn [dtype_eqb]. apply Nat.eqb_sym. Qed.
Theorem C54_common a b c : common_type a a = Ok a /\ common_type a b = common_type b a /\ (do x <- common_type a b; common_type x c) = (do y <- common_type b c; common_type a y).
Proof.
  split; [unfold common_type; rewrite dtype_eqb_refl; reflexivity|]. split.
  - unfold common_type. rewrite (dtype_eqb_sym b a). destruct (dtype_eqb a b) eqn:E; [apply dtype_eqb_iff in E; subst; reflexivity|]. destruct a, b; reflexivity.
  - unfold common_type. destruct a as [| | | | |k], b as [| | | | |l], c as [| | | | |m]; try reflexivity; cbn [dtype_eqb negb in_lut std_common bind]; try reflexivity;
      repeat match goal with |- context [Nat.eqb ?x ?y] => destruct (Nat.eqb x y) eqn:?; cbn [bind dtype_eqb negb in_lut] end; try reflexivity;
      repeat match goal with E : Nat.eqb _ _ = true |- _ => apply Nat.eqb_eq in E; subst end; rewrite ?Nat.eqb_refl in *; try discriminate; try reflexivity; congruence.
Qed.
Theorem C54_common_when a b : (exists t, common_type a b = Ok t) <-> a = b \/ (is_float a \/ is_int a) /\ (is_float b \/ is_int b).
Proof.
  unfold common_type. destruct (dtype_eqb a b) eqn:E; [apply dtype_eqb_iff in E; split; eauto|]. assert (N : a <> b) by (intros C; apply dtype_eqb_iff in C; congruence).
  unfold is_float, is_int. destruct a, b; cbn [in_lut negb]; split; try (intros [t C]; discriminate C); try (intros [C|[A B]]; [contradiction|intuition discriminate]); eauto; intros _; right; tauto.
Qed.

(** ** Comparing bin edges and coords after promotion *)
Definition promotable (v : value) : Prop := is_float (type_of v) \/ is_int (type_of v).
Lemma less_numbers a b : type_of a = type_of b -> promotable a -> exists r, less a b = Ok r /\ (r = true <-> exists x y, number a = Some x /\ number b = Some y /\ ext_lt x y).
Proof.
  unfold promotable, is_float, is_int. destruct a as [x|x|z|z|c|n i], b as [y|y|k|k|d|m j]; intros T P; try discriminate T; cbn [less number]; try (intuition discriminate); eexists; (split; [reflexivity|]); try apply less_number.
  all: rewrite Z.ltb_lt; split; [intros L; do 2 eexists; split; [reflexivity|]; split; [reflexivity|]; split; [cbn; apply IZR_le; lia|intros C; injection C as C; apply eq_IZR in C; lia]|].
  all: intros (a & b & A & B & L & N); injection A as <-; injection B as <-; cbn in L; apply le_IZR in L; assert (z <> k) by (intros ->; apply N; reflexivity); lia.
Qed.
(** conversion to the common dtype always succeeds, and rounds *)
Lemma convert_ok t v : promotable v -> (t = type_of v \/ (is_float t \/ t = Int64 /\ type_of v = Int32)) -> exists v', convert t v = Ok v' /\ type_of v' = t /\ number v' = option_map (if dtype_eqb t (type_of v) then fun x => x else round_t t) (number v).
Proof.
  intros P T. unfold convert. destruct (dtype_eqb t (type_of v)) eqn:E.
  - apply dtype_eqb_iff in E. exists v. split; [reflexivity|]. split; [symmetry; exact E|]. destruct (number v); reflexivity.
  - destruct T as [->|[F|[-> F]]]; [rewrite dtype_eqb_refl in E; discriminate E| |].
    + assert (C : exists v', cast t v = Ok v' /\ type_of v' = t) by (unfold promotable, is_float, is_int in P; destruct F as [->| ->], v; cbn [cast type_of dtype_eqb] in *; try discriminate E; try (intuition discriminate); eexists; split; reflexivity).
      destruct C as (v' & C & T). exists v'. split; [exact C|]. split; [exact T|]. apply cast_number; assumption.
    + destruct v; try discriminate F. cbn [cast]. eexists. split; [reflexivity|]. split; reflexivity.
Qed.
Lemma promote_ok e x : promotable e -> promotable x -> exists t e' x', promote e x = Ok (e', x') /\ convert t e = Ok e' /\ convert t x = Ok x' /\ type_of e' = t /\ type_of x' = t /\ (is_float t \/ is_int t) /\
  number e' = option_map (if dtype_eqb t (type_of e) then fun x => x else round_t t) (number e) /\ number x' = option_map (if dtype_eqb t (type_of x) then fun x => x else round_t t) (number x).
Proof.
  intros Pe Px. assert (G : exists t, common_type (type_of e) (type_of x) = Ok t /\ (t = type_of e \/ (is_float t \/ t = Int64 /\ type_of e = Int32)) /\ (t = type_of x \/ (is_float t \/ t = Int64 /\ type_of x = Int32)) /\ (is_float t \/ is_int t)).
  { unfold promotable, is_float, is_int, common_type in *. destruct e, x; cbn [type_of dtype_eqb negb in_lut std_common] in *; try (intuition discriminate); eexists; (split; [reflexivity|]); repeat split; tauto. }
  destruct G as (t & C & Te & Tx & Tt). destruct (convert_ok t e Pe Te) as (e' & Ce & Ye & Ne). destruct (convert_ok t x Px Tx) as (x' & Cx & Yx & Nx).
  exists t, e', x'. unfold promote. rewrite C. cbn [bind]. rewrite Cx, Ce. cbn [bind]. repeat split; assumption.
Qed.
(** what is smaller after promotion was smaller before: promotion only makes different numbers equal *)
Lemma ext_total a b : ext_lt a b \/ ext_le b a.
Proof.
  unfold ext_lt. destruct a as [|a|], b as [|b|]; cbn [ext_le]; auto; try (left; split; [exact I|discriminate]).
  destruct (Rlt_or_le a b) as [L|L]; [left|right; exact L]. split; [lra|]. intros C. injection C as ->. lra.
Qed.
Lemma ext_le_lt a b : ext_le b a -> ext_lt a b -> False.
Proof. intros L [L' N]. apply N. destruct a as [|a|], b as [|b|]; cbn [ext_le] in *; try contradiction; try reflexivity. f_equal. lra. Qed.
Theorem C54_promoted_less e x : promotable e -> promotable x -> exists r, promoted_less e x = Ok r /\ (r = true -> exists a b, number e = Some a /\ number x = Some b /\ ext_lt a b).
Proof.
  intros Pe Px. destruct (promote_ok e x Pe Px) as (t & e' & x' & P & Ce & Cx & Te & Tx & Tt & Ne & Nx). unfold promoted_less. rewrite P. cbn [bind fst snd].
  destruct (less_numbers e' x') as (r & L & R); [congruence|unfold promotable; rewrite Te; exact Tt|]. exists r. split; [exact L|]. intros ->. destruct (proj1 R eq_refl) as (a' & b' & Ea & Eb & Lt). rewrite Ne in Ea. rewrite Nx in Eb.
  destruct (number e) as [a|] eqn:Na; [|discriminate Ea]. destruct (number x) as [b|] eqn:Nb; [|discriminate Eb]. cbn [option_map] in Ea, Eb. exists a, b. split; [reflexivity|]. split; [reflexivity|].
  destruct (ext_total a b) as [G|G]; [exact G|exfalso]. injection Ea as <-. injection Eb as <-. revert Lt. apply ext_le_lt.
  assert (Same : forall v z, promotable v -> number v = Some z -> type_of v = t -> round_t t z = z).
  { clear. intros v z P N <-. unfold promotable, is_float, is_int in P. destruct v as [y|y|k|k|c|n i]; cbn [type_of round_t number] in *; try reflexivity; exact (ext_round_self _ _ N). }
  assert (Mo : ext_le (round_t t b) (round_t t a)) by (destruct t; cbn [round_t]; try exact G; apply ext_round_le; exact G).
  destruct (dtype_eqb t (type_of e)) eqn:E1, (dtype_eqb t (type_of x)) eqn:E2; try exact G; try exact Mo.
  - apply dtype_eqb_iff in E1. rewrite <- (Same e a Pe Na (eq_sym E1)). exact Mo.
  - apply dtype_eqb_iff in E2. rewrite <- (Same x b Px Nb (eq_sym E2)). exact Mo.
Qed.
(** ... and the comparison is exact if the integers are within 2^24 (edges or coords in single precision) or 2^53 *)
Definition exact_with (v w : value) : Prop := forall t, common_type (type_of v) (type_of w) = Ok t -> t = type_of v \/ fits t v.
Theorem C54_promoted_exact e x : valid e -> valid x -> promotable e -> promotable x -> exact_with e x -> exact_with x e ->
  exists r, promoted_less e x = Ok r /\ (r = true <-> exists a b, number e = Some a /\ number x = Some b /\ ext_lt a b).
Proof.
  intros Ve Vx Pe Px Ee Ex. destruct (promote_ok e x Pe Px) as (t & e' & x' & P & Ce & Cx & Te & Tx & Tt & _ & _). unfold promoted_less. rewrite P. cbn [bind fst snd].
  assert (Cm : common_type (type_of e) (type_of x) = Ok t).
  { unfold promote in P. destruct (common_type (type_of e) (type_of x)) as [t'| |] eqn:C; try discriminate P. cbn [bind] in P. destruct (convert t' x) as [x''| |] eqn:C1; try discriminate P. cbn [bind] in P. destruct (convert t' e) as [e''| |] eqn:C2; try discriminate P. cbn [bind] in P. injection P as <- <-.
    assert (T' : type_of e'' = t'). { unfold convert in C2. destruct (dtype_eqb t' (type_of e)) eqn:D; [apply dtype_eqb_iff in D; congruence|]. clear - C2. destruct t', e; cbn [cast] in C2; try discriminate C2; try (injection C2 as <-; reflexivity); destruct (to_Z _ _); try discriminate C2; injection C2 as <-; reflexivity. }
    congruence. }
  assert (Cm' : common_type (type_of x) (type_of e) = Ok t) by (rewrite <- Cm; destruct (C54_common (type_of x) (type_of e) Double) as (_ & C & _); exact C).
  assert (G : forall v v', valid v -> t = type_of v \/ fits t v -> convert t v = Ok v' -> number v' = number v).
  { intros v v' V F C. unfold convert in C. destruct (dtype_eqb t (type_of v)) eqn:D; [congruence|]. destruct F as [->|F]; [rewrite dtype_eqb_refl in D; discriminate D|]. destruct (C54_exact t v V F) as (w & Cw & _ & _ & N & _). congruence. }
  destruct (less_numbers e' x') as (r & L & R); [congruence|unfold promotable; rewrite Te; exact Tt|]. exists r. split; [exact L|]. rewrite R, (G e e' Ve (Ee t Cm) Ce), (G x x' Vx (Ex t Cm') Cx). reflexivity.
Qed.

(** ** Variables and data arrays *)
Definition well_typed (v : avar) : Prop := Forall (fun x => type_of x = a_type v) (a_values v) /\ match a_variances v with Some e => can_have_variances (a_type v) = true /\ Forall (fun x => type_of x = a_type v) e | None => True end.
Lemma casts_each t l r : casts t l = Ok r <-> Forall2 (fun v w => cast t v = Ok w) l r.
Proof.
  revert r. induction l as [|v l IH]; intros r; cbn [casts].
  - split; [intros E; injection E as <-; constructor|intros F; inversion F; reflexivity].
  - split.
    + destruct (cast t v) as [w| |] eqn:C; try discriminate. cbn [bind]. destruct (casts t l) as [q| |] eqn:Q; try discriminate. cbn [bind]. intros E. injection E as <-. constructor; [exact C|]. apply IH. reflexivity.
    + intros F. inversion F as [|? w ? q C D]; subst. rewrite C. cbn [bind]. apply IH in D. rewrite D. reflexivity.
Qed.
(** The result: dtype, unit and number of elements; every element and variance is converted; a new buffer unless nothing is converted and no copy is asked for. *)
Theorem C54_variable fresh v t c w : astype fresh v t c = Ok w -> a_type w = t /\ a_unit w = a_unit v /\
  (t = a_type v -> a_values w = a_values v /\ a_variances w = a_variances v /\ a_buffer w = if c then a_buffer v else fresh) /\
  (t <> a_type v -> a_buffer w = fresh /\ Forall2 (fun x y => cast t x = Ok y) (a_values v) (a_values w) /\
    match a_variances v, a_variances w with None, None => True | Some e, Some e' => is_float t /\ Forall2 (fun x y => cast t x = Ok y) e e' | _, _ => False end).
Proof.
  unfold astype. destruct (dtype_eqb t (a_type v)) eqn:E.
  - apply dtype_eqb_iff in E. intros Q. destruct c; injection Q as <-; cbn [a_type a_unit a_buffer a_values a_variances]; (split; [congruence|]); (split; [reflexivity|]); (split; [auto|]); intros N; contradiction.
  - assert (N : t <> a_type v) by (intros C; apply dtype_eqb_iff in C; congruence). destruct (negb (supported t)); [discriminate|]. destruct (negb (supported (a_type v))); [discriminate|].
    destruct (a_variances v) as [es|].
    + destruct (can_have_variances t) eqn:CV; [|discriminate]. destruct (casts t (a_values v)) as [l| |] eqn:A; try discriminate. cbn [bind]. destruct (casts t es) as [l'| |] eqn:B; try discriminate. cbn [bind]. intros Q. injection Q as <-. cbn [a_type a_unit a_buffer a_values a_variances].
      repeat split; try contradiction; [apply casts_each, A|destruct t; try discriminate CV; [left|right]; reflexivity|apply casts_each, B].
    + destruct (casts t (a_values v)) as [l| |] eqn:A; try discriminate. cbn [bind]. intros Q. injection Q as <-. cbn [a_type a_unit a_buffer a_values a_variances]. repeat split; try contradiction. apply casts_each, A.
Qed.
(** When it fails: dtypes that are not numbers, variances that would be lost; undefined only for floats that do not fit an integer. *)
Theorem C54_fails fresh v t c : well_typed v -> match astype fresh v t c with
  | Ok _ => True
  | Throw TypeError => t <> a_type v /\ ((exists n, t = Other n) \/ exists n, a_type v = Other n)
  | Throw VariancesError => t <> a_type v /\ a_variances v <> None /\ ~ is_float t
  | Throw _ => False
  | Ub => is_int t /\ is_float (a_type v) /\ exists x, In x (a_values v) /\ cast t x = Ub
  end.
Proof.
  intros [W W']. unfold astype. destruct (dtype_eqb t (a_type v)) eqn:E; [exact I|]. assert (N : t <> a_type v) by (intros C; apply dtype_eqb_iff in C; congruence).
  destruct (supported t) eqn:S; cbn [negb]; [|split; [exact N|]; left; destruct t; try discriminate S; eauto]. destruct (supported (a_type v)) eqn:S'; cbn [negb]; [|split; [exact N|]; right; destruct (a_type v); try discriminate S'; eauto].
  assert (G : forall l, Forall (fun x => type_of x = a_type v) l -> (exists r, casts t l = Ok r) \/ casts t l = Ub /\ is_int t /\ is_float (a_type v) /\ exists x, In x l /\ cast t x = Ub).
  { induction 1 as [|x l Tx Tl IH]; [left; eexists; reflexivity|]. cbn [casts].
    assert (K : (exists y, cast t x = Ok y) \/ cast t x = Ub /\ is_int t /\ is_float (a_type v)).
    { clear - Tx N S S'. unfold is_int, is_float. rewrite <- Tx in *. destruct t, x; cbn [cast type_of supported] in *; try discriminate; try (contradiction N; reflexivity); eauto;
        match goal with |- context [to_Z ?b ?y] => destruct (to_Z_total b y) as [Q|[z Q]]; rewrite Q; cbn [bind]; [right; auto|eauto] end. }
    destruct K as [[y ->]|[K I']]; [|right; rewrite K; cbn [bind]; split; [reflexivity|]; destruct I'; repeat split; try assumption; exists x; split; [left; reflexivity|exact K]]. cbn [bind].
    destruct IH as [[r ->]|(Q & I1 & I2 & z & Z1 & Z2)]; [left; eexists; reflexivity|right]. rewrite Q. cbn [bind]. repeat split; try assumption. exists z. split; [right; exact Z1|exact Z2]. }
  destruct (a_variances v) as [es|] eqn:Va.
  - destruct W' as [CV W']. destruct (can_have_variances t) eqn:CT.
    + destruct (G _ W) as [[r ->]|(-> & Q)]; cbn [bind]; [|exact Q]. destruct (G _ W') as [[r' ->]|(_ & Q & _)]; cbn [bind]; [exact I|]. destruct Q as [->| ->]; discriminate CT.
    + split; [exact N|]. split; [discriminate|]. intros [->| ->]; discriminate CT.
  - destruct (G _ W) as [[r ->]|(-> & Q)]; cbn [bind]; [exact I|exact Q].
Qed.
(** A data array shares masks with its conversion if and only if it shares the data. *)
Theorem C54_array fresh copies a t c b : fresh <> a_buffer (aa_data a) -> (forall n, copies n <> n) -> aa_masks a <> [] -> astype_array fresh copies a t c = Ok b ->
  astype fresh (aa_data a) t c = Ok (aa_data b) /\ aa_coords b = aa_coords a /\ map fst (aa_masks b) = map fst (aa_masks a) /\
  (a_buffer (aa_data b) = a_buffer (aa_data a) <-> aa_masks b = aa_masks a) /\ (a_buffer (aa_data b) = a_buffer (aa_data a) <-> t = a_type (aa_data a) /\ c = true).
Proof.
  intros F Cp NE E. unfold astype_array in E. destruct (astype fresh (aa_data a) t c) as [d| |] eqn:D; try discriminate E. cbn [bind] in E. injection E as <-. cbn [aa_data aa_coords aa_masks].
  destruct (C54_variable fresh (aa_data a) t c d D) as (Td & _ & Same & Diff).
  split; [reflexivity|]. split; [reflexivity|]. split; [|split].
  - destruct (Nat.eqb _ _); [reflexivity|]. rewrite map_map. reflexivity.
  - destruct (Nat.eqb (a_buffer d) (a_buffer (aa_data a))) eqn:B.
    + apply Nat.eqb_eq in B. tauto.
    + apply Nat.eqb_neq in B. split; [contradiction|]. intros Q. exfalso. destruct (aa_masks a) as [|m l]; [contradiction NE; reflexivity|]. cbn [map] in Q. injection Q as Q _. destruct m as [k n]. cbn [fst snd] in Q. injection Q as Q. exact (Cp n Q).
  - destruct (dtype_eqb t (a_type (aa_data a))) eqn:T.
    + apply dtype_eqb_iff in T. destruct (Same T) as (_ & _ & B). rewrite B. destruct c; [tauto|]. split; [intros Q; contradiction|intros [_ Q]; discriminate Q].
    + assert (N : t <> a_type (aa_data a)) by (intros C; apply dtype_eqb_iff in C; congruence). destruct (Diff N) as [B _]. rewrite B. split; [intros Q; contradiction|intros [Q _]; contradiction].
Qed.

(** ** What fails *)
(** The common dtype does not hold all values: 16777219 is below the edge 16777220 and above 16777218, and is counted as 16777220, in the next bin. *)
Theorem C54_promotion_refuted : exists lo hi x : value, type_of lo = Float /\ type_of hi = Float /\ type_of x = Int64 /\ valid x /\
  number lo = Some (Fin 16777218) /\ number hi = Some (Fin 16777220) /\ number x = Some (Fin 16777219) /\ promoted_less lo x = Ok true /\ promoted_less x hi = Ok false.
Proof.
  exists (VFloat (@B754_finite 24 128 false 8388609 1 eq_refl)), (VFloat (@B754_finite 24 128 false 8388610 1 eq_refl)), (VInt64 16777219). repeat split; try reflexivity; try (cbn; lia).
  1, 2: cbn [number float_number B2R]; unfold F2R; cbn; do 2 f_equal; lra.
Qed.
(** ... and two integers that differ are one number in double precision. *)
Theorem C54_strict_refuted : exists x y e : value, valid x /\ valid y /\ type_of x = Int64 /\ type_of y = Int64 /\ x <> y /\ cast Double x = cast Double y /\ type_of e = Double /\ number e = number y /\ promoted_less x e = Ok false.
Proof.
  exists (VInt64 9007199254740993), (VInt64 9007199254740992), (VDouble (@B754_finite 53 1024 false 4503599627370496 1 eq_refl)). repeat split; try reflexivity; try (cbn; lia); try discriminate.
  - cbn [cast]. do 2 f_equal. assert (E : B2SF (from_Z 9007199254740993 : f64) = B2SF (from_Z 9007199254740992 : f64)) by (vm_compute; reflexivity). apply B2SF_inj. exact E.
  - cbn [number float_number B2R]. unfold F2R. cbn. do 2 f_equal. lra.
Qed.
(** The largest integers do not come back from double precision: the conversion is undefined. *)
Theorem C54_back_refuted : exists v w, valid v /\ cast Double v = Ok w /\ cast Int64 w = Ub.
Proof. exists (VInt64 9223372036854775807). eexists. split; [cbn; lia|]. split; [reflexivity|]. cbn [cast]. replace (to_Z 64 _) with (Ub : res Z) by (vm_compute; reflexivity). reflexivity. Qed.
(** Integers of 64 bits that do not fit 32 bits are not noticed. *)
Theorem C54_wrap_refuted : exists v w, valid v /\ number v = Some (Fin 4294967296) /\ cast Int32 v = Ok w /\ number w = Some (Fin 0).
Proof. exists (VInt64 4294967296), (VInt32 0). split; [cbn; lia|]. repeat split; reflexivity. Qed.

(** ** Cases *)
Example C54_case : exists w, cast Float (VInt64 3) = Ok w /\ number w = Some (Fin 3) /\ cast Int64 w = Ok (VInt64 3).
Proof. destruct (C54_exact Float (VInt64 3)) as (w & C & _ & _ & N & B); [cbn; lia|cbn; lia|]. exists w. auto. Qed.
Example C54_variable_case : astype 1 (mkavar Int32 7 0 [VInt32 (-5); VInt32 6] None) Int64 false = Ok (mkavar Int64 7 1 [VInt64 (-5); VInt64 6] None) /\
  astype 1 (mkavar Double 7 0 [VDouble (B754_zero false)] (Some [VDouble (B754_zero false)])) Int64 false = Throw VariancesError /\
  astype 1 (mkavar Double 7 0 [VDouble B754_nan] None) Int64 false = Ub /\ astype 1 (mkavar Double 7 0 [VDouble B754_nan] None) Double true = Ok (mkavar Double 7 0 [VDouble B754_nan] None).
Proof. repeat split; reflexivity. Qed.
Example C54_promoted_case : promoted_less (VDouble (B754_infinity true)) (VInt32 (-2147483648)) = Ok true /\ promoted_less (VInt64 5) (VInt32 5) = Ok false /\ promoted_less (VInt64 5) (VInt32 6) = Ok true.
Proof. repeat split; vm_compute; reflexivity. Qed.
Print Assumptions C54_nearest.
Print Assumptions C54_special.
Print Assumptions C54_to_int.
Print Assumptions C54_to_bool.
Print Assumptions C54_monotone.
Print Assumptions C54_exact.
Print Assumptions C54_common.
Print Assumptions C54_common_when.
Print Assumptions C54_promoted_less.
Print Assumptions C54_promoted_exact.
Print Assumptions C54_variable.
Print Assumptions C54_fails.
Print Assumptions C54_array.
Print Assumptions C54_promotion_refuted.
Print Assumptions C54_strict_refuted.
Print Assumptions C54_back_refuted.
Print Assumptions C54_wrap_refuted.
