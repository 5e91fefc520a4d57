(** * C53: products of spatial transforms are one after the other, inverses undo *)
From Coq Require Import Reals Lra.
From Verif Require Import Base Units_Model Units_Spec Units_Proofs Units_Props.
From Verif Require Import Spatial_Model Spatial_Spec.
Local Open Scope R_scope.

Ltac comp :=
  repeat match goal with
  | v : vec |- _ => let a := fresh "a" in let b := fresh "a" in let c := fresh "a" in destruct v as [a b c]
  | m : mat |- _ => let a := fresh "m" in let b := fresh "m" in let c := fresh "m" in destruct m as [a b c]
  | q : quat |- _ => let a := fresh "w" in let b := fresh "u" in destruct q as [a b]
  end; cbv beta iota zeta delta [vx vy vz c0 c1 c2 qw qv vadd vscale cross mv mm dot qprod rotmat qapply qinv qnorm2 minv det] in *.
Lemma vec_eq a b : vx a = vx b -> vy a = vy b -> vz a = vz b -> a = b.
Proof. destruct a, b. cbn. congruence. Qed.
Lemma qapply_rotmat q v : qapply q v = mv (rotmat q) v.
Proof. comp. apply vec_eq; cbn [vx vy vz]; ring. Qed.
Lemma mv_mm a b v : mv (mm a b) v = mv a (mv b v).
Proof. comp. apply vec_eq; cbn [vx vy vz]; ring. Qed.
Lemma mv_add m v w : mv m (vadd v w) = vadd (mv m v) (mv m w).
Proof. comp. apply vec_eq; cbn [vx vy vz]; ring. Qed.
Lemma mv_scale m s v : mv m (vscale s v) = vscale s (mv m v).
Proof. comp. apply vec_eq; cbn [vx vy vz]; ring. Qed.
Lemma vadd_assoc a b c : vadd (vadd a b) c = vadd a (vadd b c).
Proof. comp. apply vec_eq; cbn [vx vy vz]; ring. Qed.
Lemma vadd_comm a b : vadd a b = vadd b a.
Proof. comp. apply vec_eq; cbn [vx vy vz]; ring. Qed.
(** [q v q*], for any quaternion *)
Definition ham (q : quat) (v : vec) : vec :=
  vadd (vadd (vscale (qw q * qw q - dot (qv q) (qv q)) v) (vscale (2 * qw q) (cross (qv q) v))) (vscale (2 * dot (qv q) v) (qv q)).
Lemma ham_prod p q v : ham (qprod p q) v = ham p (ham q v).
Proof. unfold ham. comp. apply vec_eq; cbn [vx vy vz]; ring. Qed.
Lemma ham_apply q v : qapply q v = vadd (ham q v) (vscale (1 - qnorm2 q) v).
Proof. unfold ham. comp. apply vec_eq; cbn [vx vy vz]; ring. Qed.
Lemma norm_prod p q : qnorm2 (qprod p q) = qnorm2 p * qnorm2 q.
Proof. comp. ring. Qed.
Lemma norm_iff q : normalized q <-> qnorm2 q = 1.
Proof. unfold normalized. comp. split; intros <-; ring. Qed.
Lemma ham_normal q v : normalized q -> qapply q v = ham q v.
Proof. intros N. apply norm_iff in N. rewrite ham_apply, N. unfold ham. comp. apply vec_eq; cbn [vx vy vz]; ring. Qed.
Lemma ham_rotated q v w : rotated q v w <-> w = ham q v.
Proof.
  unfold rotated, ham, hamilton. comp. split.
  - intros E. injection E as E1 E2 E3 E4. apply vec_eq; cbn [vx vy vz]; lra.
  - intros E. injection E as -> -> ->. repeat match goal with |- (_, _) = (_, _) => apply f_equal2 end; ring.
Qed.
Lemma normal_prod p q : normalized p -> normalized q -> normalized (qprod p q).
Proof. rewrite !norm_iff, norm_prod. intros -> ->. ring. Qed.

(** Applying a transform does what it should; rotations keep lengths, angles and orientation. *)
Theorem C53_apply a v w : proper_rotation a -> apply_t a v = w <-> does a v w.
Proof.
  destruct a as [q|m|t|m t]; cbn [proper_rotation apply_t does]; intros N.
  - rewrite ham_rotated, ham_normal by exact N. split; congruence.
  - unfold linear. split; [intros <-; comp; repeat split; ring|]. intros (A & B & C). comp. apply vec_eq; cbn [vx vy vz]; lra.
  - unfold translated. split; [intros <-; comp; repeat split; ring|]. intros (A & B & C). comp. apply vec_eq; cbn [vx vy vz]; lra.
  - unfold linear, translated. split.
    + intros <-. exists (mv m v). comp. repeat split; ring.
    + intros (x & (A & B & C) & D & E & F). comp. subst. apply vec_eq; cbn [vx vy vz]; lra.
Qed.
Theorem C53_rotation q v w : normalized q -> dot (qapply q v) (qapply q w) = dot v w /\ cross (qapply q v) (qapply q w) = qapply q (cross v w).
Proof.
  intros N. rewrite !(ham_normal q _ N). apply norm_iff in N.
  assert (D : dot (ham q v) (ham q w) = qnorm2 q * qnorm2 q * dot v w) by (unfold ham; comp; ring).
  assert (C : cross (ham q v) (ham q w) = vscale (qnorm2 q) (ham q (cross v w))) by (unfold ham; comp; apply vec_eq; cbn [vx vy vz]; ring).
  rewrite D, C, N. split; [ring|]. destruct (ham q (cross v w)) as [a b c]. unfold vscale. cbn [vx vy vz]. f_equal; ring.
Qed.

Section Props.
Variable lims : limits.
Hypothesis plims : proper_limits lims.
(** The usual units: rotations and linear transforms are dimensionless. *)
Definition usual (a : uunit * transform) : Prop := proper_unit lims (fst a) /\ match snd a with Rot _ | Lin _ => fst a = one | _ => True end.
Lemma act_prod a b v : proper_rotation a -> proper_rotation b -> (forall m t n, a = Aff m t -> b = Lin n -> False) -> apply_t (prod_t a b) v = apply_t a (apply_t b v).
Proof.
  intros Na Nb X. destruct a as [p|m|t|m t], b as [q|n|s|n s]; cbn [prod_t apply_t proper_rotation] in *; rewrite ?qapply_rotmat, ?mv_mm, ?mv_add, ?vadd_assoc; try reflexivity; try (exfalso; eapply X; reflexivity).
  all: rewrite <- ?qapply_rotmat; try (rewrite !ham_normal by (try apply normal_prod; assumption); apply ham_prod).
  all: try (f_equal; apply vadd_comm).
Qed.
Lemma one_mul u : proper_unit lims u -> unit_mul lims one u = match u with None => Throw UnitError | Some _ => Ok u end.
Proof. intros P. destruct u as [x|]; [|reflexivity]. apply (mul_one lims plims); [exact P|discriminate]. Qed.
Lemma mul_one_r u : proper_unit lims u -> unit_mul lims u one = match u with None => Throw UnitError | Some _ => Ok u end.
Proof. intros P. destruct u as [x|]; [|reflexivity]. apply (mul_one lims plims); [exact P|discriminate]. Qed.
Lemma same_case a b : unit_same a b = if unit_eqb a b then Ok a else Throw UnitError. Proof. reflexivity. Qed.

(** A product applied to a vector is its factors applied one after the other, with units; it fails if and only if one of them does. *)
Theorem C53_compose a b v : usual a -> usual b -> proper_unit lims (fst v) -> proper_rotation (snd a) -> proper_rotation (snd b) -> (forall m t n, snd a = Aff m t -> snd b = Lin n -> False) ->
  (do c <- mult lims a b; apply lims c v) = (do w <- apply lims b v; apply lims a w).
Proof.
  destruct a as [u a], b as [u' b], v as [uv v]. intros [Pa Ua] [Pb Ub] Pv Na Nb X. cbn [fst snd] in *. unfold mult, apply. cbn [fst snd].
  assert (E := act_prod a b v Na Nb X).
  assert (T : with_translation (prod_t a b) = with_translation a || with_translation b) by (destruct a, b; try reflexivity; exfalso; eapply X; reflexivity).
  destruct a as [p|m|t|m t], b as [q|n|s|n s]; cbn [with_translation andb orb] in *; try (rewrite Ua); try (rewrite Ub);
    try (exfalso; eapply X; reflexivity).
  all: repeat first [progress cbn [bind fst snd with_translation prod_t]
    | match goal with
      | |- context [unit_mul lims one ?x] => rewrite (one_mul x) by (first [exact (one_proper lims plims)|assumption])
      | |- context [unit_mul lims ?x one] => rewrite (mul_one_r x) by (first [exact (one_proper lims plims)|assumption])
      | |- context [match ?u with Some _ => _ | None => _ end] => is_var u; destruct u; cbn [bind fst snd]
      | |- context [unit_same ?a ?b] => let Q := fresh "Q" in unfold unit_same at 1; destruct (unit_eqb a b) eqn:Q; cbn [bind fst snd]; [apply unit_eqb_iff in Q; try subst|]
      end].
  all: unfold one in *; cbn [bind fst snd with_translation] in *.
  all: rewrite ?(one_mul (Some _)) by assumption; cbn [bind fst snd].
  all: try reflexivity.
  all: try (rewrite <- E; reflexivity).
  all: try congruence.
  all: repeat match goal with
       | Q : unit_eqb ?a ?a = false |- _ => rewrite unit_eqb_refl in Q; discriminate
       end.
  all: rewrite Q, unit_eqb_refl in Q0; discriminate.
Qed.
Lemma det_is m : det m = determinant m. Proof. unfold determinant. comp. ring. Qed.
Lemma minv_mv m v : determinant m <> 0 -> mv (minv m) (mv m v) = v.
Proof. rewrite <- det_is. intros D. comp. apply vec_eq; cbn [vx vy vz]; field; exact D. Qed.
Lemma mv_minv m v : determinant m <> 0 -> mv m (mv (minv m) v) = v.
Proof. rewrite <- det_is. intros D. comp. apply vec_eq; cbn [vx vy vz]; field; exact D. Qed.
Lemma qinv_normal q : normalized q -> qinv q = mkq (qw q) (vscale (-1) (qv q)).
Proof. intros N. apply norm_iff in N. unfold qinv. rewrite N. f_equal; [field|]. f_equal. field. Qed.
Lemma normal_inv q : normalized q -> normalized (qinv q).
Proof. intros N. rewrite (qinv_normal q N). unfold normalized in *. cbn [qw qv vscale vx vy vz]. lra. Qed.
Lemma ham_inv q v : normalized q -> ham (qinv q) (ham q v) = v.
Proof.
  intros N. rewrite <- ham_prod. assert (E : qprod (qinv q) q = mkq 1 (mkv 0 0 0)).
  { rewrite (qinv_normal q N). apply norm_iff in N. destruct q as [w [x y z]]. unfold qprod, qnorm2 in *. cbn [qw qv] in *. f_equal; [rewrite <- N; comp; ring|]. comp. apply vec_eq; cbn [vx vy vz]; ring. }
  rewrite E. unfold ham. comp. apply vec_eq; cbn [vx vy vz]; ring.
Qed.
Lemma qinv_undoes q v : normalized q -> qapply (qinv q) (qapply q v) = v.
Proof. intros N. rewrite (ham_normal _ _ (normal_inv q N)), (ham_normal q v N). apply ham_inv, N. Qed.
Lemma undo a v : invertible a -> apply_t (inv_t a) (apply_t a v) = v.
Proof.
  destruct a as [q|m|t|m t]; cbn [invertible inv_t apply_t]; intros I.
  - apply qinv_undoes, I.
  - apply minv_mv, I.
  - comp. apply vec_eq; cbn [vx vy vz]; ring.
  - rewrite mv_add, (minv_mv m v I). set (x := mv (minv m) t). clearbody x. comp. apply vec_eq; cbn [vx vy vz]; ring.
Qed.
Lemma qinv_qinv q : normalized q -> qinv (qinv q) = q.
Proof.
  intros N. pose proof (normal_inv q N) as N'. rewrite (qinv_normal _ N'), (qinv_normal q N). cbn [qw qv]. destruct q as [w [x y z]]. unfold vscale. cbn [vx vy vz qw qv]. do 2 f_equal; ring.
Qed.
Lemma undone a v : invertible a -> apply_t a (apply_t (inv_t a) v) = v.
Proof.
  destruct a as [q|m|t|m t]; cbn [invertible inv_t apply_t]; intros I.
  - rewrite <- (qinv_qinv q I) at 1. apply qinv_undoes, normal_inv, I.
  - apply mv_minv, I.
  - comp. apply vec_eq; cbn [vx vy vz]; ring.
  - rewrite mv_add, mv_scale, !(mv_minv m _ I). comp. apply vec_eq; cbn [vx vy vz]; ring.
Qed.

(** The inverse undoes the transform, with units, whatever they are. *)
Theorem C53_inverse a b v w : proper_unit lims (fst a) -> proper_unit lims (fst v) -> invertible (snd a) -> inv lims a = Ok b -> apply lims a v = Ok w -> apply lims b w = Ok v.
Proof.
  destruct a as [u a], v as [uv v], w as [uw w]. intros Pa Pv I B A. unfold inv, apply in *. cbn [fst snd] in *.
  assert (U := undo a v I). assert (T : with_translation (inv_t a) = with_translation a) by (destruct a; reflexivity).
  destruct (with_translation a) eqn:W; cbn [bind fst snd] in *.
  - injection B as <-. cbn [fst snd]. rewrite T. unfold unit_same in *. destruct (unit_eqb u uv) eqn:Q; [|discriminate A]. cbn [bind] in A. apply unit_eqb_iff in Q. subst uv.
    injection A as <- <-. rewrite unit_eqb_refl. cbn [bind]. rewrite U. reflexivity.
  - destruct (unit_div lims one u) as [iu| |] eqn:D; try discriminate B. cbn [bind] in B. injection B as <-. cbn [fst snd]. rewrite T.
    destruct (unit_mul lims u uv) as [uw'| |] eqn:M; try discriminate A. cbn [bind] in A. injection A as <- <-.
    pose proof (one_proper lims plims) as P1. pose proof (div_proper lims one u iu P1 Pa D) as Pi. pose proof (div_mul lims plims one u iu P1 Pa D) as I1.
    rewrite <- (mul_assoc lims plims iu u uv one uw' Pi Pa Pv I1 M). rewrite (one_mul uv Pv).
    destruct uv as [p|]; [cbn [bind]; rewrite U; reflexivity|]. destruct u as [p|]; discriminate.
Qed.
(** ... on both sides, and the inverse of a rotation is a rotation. *)
Theorem C53_inverse_right a v : invertible a -> apply_t a (apply_t (inv_t a) v) = v /\ proper_rotation (inv_t a).
Proof. intros I. split; [apply undone, I|]. destruct a as [q|m|t|m t]; cbn [inv_t proper_rotation]; try exact Logic.I. apply normal_inv, I. Qed.
(** Translations and affine transforms have inverses in any unit; the others if their unit is not none, and the exponents of its inverse exist. *)
Theorem C53_inverse_exists a : proper_unit lims (fst a) -> (exists b, inv lims a = Ok b) <->
  match snd a with
  | Rot _ | Lin _ => exists m es, fst a = Some (m, es) /\ forall i l, nth_error lims i = Some l -> (fst l <= - nth i es 0%Z <= snd l)%Z
  | _ => True
  end.
Proof.
  destruct a as [u a]. cbn [fst snd]. intros Pa. unfold inv. cbn [fst snd].
  assert (D : (exists b, unit_div lims one u = Ok b) <-> exists m es, u = Some (m, es) /\ forall i l, nth_error lims i = Some l -> (fst l <= - nth i es 0%Z <= snd l)%Z).
  { destruct u as [[m es]|]; [|split; [intros [b E]; discriminate E|intros (m & es & E & _); discriminate E]].
    pose proof (proper_len lims plims _ _ Pa) as LA. unfold one. rewrite div_some. cbn [pdivides snd].
    transitivity (in_limits lims (combine_with Z.sub (repeat 0%Z 10) es) = true).
    - destruct (in_limits lims _); split; try discriminate; eauto. intros [b E]. discriminate E.
    - rewrite in_limits_iff. assert (N : forall i, nth i (combine_with Z.sub (repeat 0%Z 10) es) 0%Z = (- nth i es 0)%Z) by (intros i; rewrite cw_nth by (try reflexivity; rewrite LA; reflexivity); rewrite zero_nth; lia).
      assert (Len : length lims = length (combine_with Z.sub (repeat 0%Z 10) es)) by (rewrite cw_length by (rewrite LA; reflexivity); exact (proj1 plims)).
      transitivity (forall i l, nth_error lims i = Some l -> (fst l <= - nth i es 0%Z <= snd l)%Z); [|split; [eauto|intros (m' & es' & E & Q); injection E as <- <-; exact Q]].
      setoid_rewrite <- N. clear - Len. revert Len. generalize (combine_with Z.sub (repeat 0%Z 10) es) as l. induction lims as [|p ls IH]; intros [|e l] Len; try discriminate.
      + split; [intros _ [|i] p C; discriminate|constructor].
      + split.
        * intros F [|i] q E; inversion F as [|? ? ? ? P Q]; subst; cbn in *; [injection E as <-; exact P|]. injection Len as Len. apply (proj1 (IH l Len) Q i q E).
        * intros Q. constructor; [exact (Q 0%nat p eq_refl)|]. injection Len as Len. apply (IH l Len). intros i q E. exact (Q (S i) q E). }
  destruct a; cbn [with_translation bind]; try (split; [auto|intros _; eexists; reflexivity]).
  all: rewrite <- D; destruct (unit_div lims one u) as [w| |]; cbn [bind]; split; intros [b E]; try discriminate E; eauto.
Qed.
(** Products of rotations are rotations. *)
Theorem C53_closed a b : proper_rotation a -> proper_rotation b -> proper_rotation (prod_t a b).
Proof. destruct a, b; cbn [prod_t proper_rotation]; auto. intros A B. apply normal_prod; assumption. Qed.
End Props.

(** Conversion to another unit of length commutes with applying the transform; rotations and matrices are not converted. *)
Theorem C53_to_unit s a a' v : rescale_t s a = Some a' -> apply_t a' (vscale s v) = vscale s (apply_t a v).
Proof.
  destruct a as [q|m|t|m t]; cbn [rescale_t]; intros E; try discriminate E; injection E as <-; cbn [apply_t]; [|rewrite mv_scale; set (x := mv m v); clearbody x]; comp; apply vec_eq; cbn [vx vy vz]; ring.
Qed.
Theorem C53_to_unit_which s a : (exists a', rescale_t s a = Some a') <-> with_translation a = true.
Proof. destruct a; cbn [rescale_t with_translation]; split; intros E; try discriminate E; try reflexivity; try (destruct E; discriminate); eauto. Qed.

(** ** What fails *)
(** Quaternions are not normalized by the library. Those that are not do neither rotate nor compose, and the inverse does not undo them. *)
Definition twice : quat := mkq 0 (mkv 2 0 0).
Theorem C53_normalized_refuted :
  (exists v, qapply (qinv twice) (qapply twice v) <> v) /\ (exists v, qapply (qprod twice twice) v <> qapply twice (qapply twice v)) /\ (exists v, dot (qapply twice v) (qapply twice v) <> dot v v).
Proof.
  split; [|split]; exists (mkv 0 1 0); unfold twice; comp.
  - intros E. apply (f_equal vy) in E. cbn [vy] in E. lra.
  - intros E. apply (f_equal vy) in E. cbn [vy] in E. lra.
  - lra.
Qed.
(** A matrix multiplied by an affine transform is taken for three points: the product is not one after the other. *)
Definition same : mat := mkm (mkv 1 0 0) (mkv 0 1 0) (mkv 0 0 1).
Lemma same_det : determinant same <> 0. Proof. unfold determinant, same. cbn [c0 c1 c2 vx vy vz]. lra. Qed.
Theorem C53_affine_linear_refuted :
  exists a b v c x y, usual widths a /\ usual widths b /\ proper_unit widths (fst v) /\ invertible (snd a) /\ invertible (snd b) /\
    mult widths a b = Ok c /\ apply widths c v = Ok x /\ (do w <- apply widths b v; apply widths a w) = Ok y /\ fst x <> fst y /\ snd x <> snd y.
Proof.
  exists (meters 1, Aff same (mkv 1 0 0)), (one, Lin same), (meters 1, mkv 0 0 0).
  pose proof (mul_one widths widths_proper (meters 1) (meters_proper 1 ltac:(lia)) (meters_ne_none 1)) as [M1 M2].
  eexists (meters 1, _), (Some (1 * 1, [2; 0; 0; 0; 0; 0; 0; 0; 0; 0]%Z), _), (meters 1, _).
  split; [split; [apply meters_proper; lia|exact I]|]. split; [split; [apply (one_proper widths widths_proper)|reflexivity]|]. split; [apply meters_proper; lia|].
  split; [exact same_det|]. split; [exact same_det|].
  split; [unfold mult; cbn [fst snd with_translation andb]; rewrite M1; reflexivity|].
  split; [unfold apply; cbn [fst snd with_translation prod_t]; unfold meters; rewrite mul_some; reflexivity|].
  split; [unfold apply at 1; cbn [fst snd with_translation]; rewrite M2; cbn [bind]; unfold apply; cbn [fst snd with_translation]; unfold unit_same; rewrite unit_eqb_refl; reflexivity|].
  cbn [fst snd]. split; [intros E; discriminate E|]. unfold same. cbn [apply_t]. comp. intros E. apply (f_equal vx) in E. cbn [vx] in E. lra.
Qed.
(** Linear transforms with a unit: the product with a translation has the product of the units, and is then not applied to what its factors are applied to. *)
Theorem C53_linear_unit_refuted :
  exists a b v c y, proper_unit widths (fst a) /\ proper_unit widths (fst b) /\ proper_unit widths (fst v) /\ invertible (snd a) /\ invertible (snd b) /\
    mult widths a b = Ok c /\ apply widths c v = Throw UnitError /\ (do w <- apply widths b v; apply widths a w) = Ok y.
Proof.
  exists (meters 1, Lin same), (meters 1, Trans (mkv 1 0 0)), (meters 1, mkv 0 0 0).
  eexists (Some (1 * 1, [2; 0; 0; 0; 0; 0; 0; 0; 0; 0]%Z), _), (Some (1 * 1, [2; 0; 0; 0; 0; 0; 0; 0; 0; 0]%Z), _).
  do 3 (split; [apply meters_proper; lia|]). split; [exact same_det|]. split; [exact I|].
  split; [unfold mult; cbn [fst snd with_translation andb]; unfold meters; rewrite mul_some; reflexivity|].
  split.
  - unfold apply. cbn [fst snd with_translation prod_t]. rewrite unit_same_fails; [reflexivity|]. intros E. discriminate E.
  - unfold apply at 1. cbn [fst snd with_translation]. unfold unit_same. rewrite unit_eqb_refl. cbn [bind]. unfold apply. cbn [fst snd with_translation]. unfold meters. rewrite mul_some. reflexivity.
Qed.
(** Rotations and matrices without unit have no inverse, although they can be multiplied. *)
Theorem C53_inverse_none_refuted : exists a b, invertible (snd a) /\ mult widths a a = Ok b /\ inv widths a = Throw UnitError.
Proof. exists (none, Lin same). eexists. split; [exact same_det|]. split; [reflexivity|]. reflexivity. Qed.

(** ** A case: a quarter turn about z, then a shift along x *)
Definition half : R := sqrt (/ 2).
Lemma half_half : half * half = / 2. Proof. apply sqrt_sqrt. lra. Qed.
Definition turn : quat := mkq half (mkv 0 0 half).
Lemma turn_normal : normalized turn.
Proof. unfold normalized, turn. cbn [qw qv vx vy vz]. pose proof half_half. lra. Qed.
Definition shift : uunit * transform := (meters 1, Trans (mkv 3 0 0)).
Example C53_case : exists c d, mult widths shift (one, Rot turn) = Ok c /\ apply widths c (meters 1, mkv 1 0 0) = Ok (meters 1, mkv 3 1 0) /\
  inv widths c = Ok d /\ apply widths d (meters 1, mkv 3 1 0) = Ok (meters 1, mkv 1 0 0).
Proof.
  pose proof (mul_one widths widths_proper (meters 1) (meters_proper 1 ltac:(lia)) (meters_ne_none 1)) as [M1 M2]. pose proof half_half as HH.
  assert (E : mult widths shift (one, Rot turn) = Ok (meters 1, Aff (rotmat turn) (mkv 3 0 0))) by (unfold mult, shift; cbn [fst snd with_translation andb]; rewrite M1; reflexivity).
  assert (A : apply widths (meters 1, Aff (rotmat turn) (mkv 3 0 0)) (meters 1, mkv 1 0 0) = Ok (meters 1, mkv 3 1 0)).
  { unfold apply. cbn [fst snd with_translation]. unfold unit_same. rewrite unit_eqb_refl. cbn [bind apply_t]. do 2 f_equal. unfold turn. comp. apply vec_eq; cbn [vx vy vz]; nra. }
  do 2 eexists. split; [exact E|]. split; [exact A|]. split; [reflexivity|].
  apply (C53_inverse widths widths_proper (meters 1, Aff (rotmat turn) (mkv 3 0 0)) _ (meters 1, mkv 1 0 0)); [apply meters_proper; lia|apply meters_proper; lia| |reflexivity|exact A].
  cbn [snd invertible]. unfold determinant, turn. comp. intros D. nra.
Qed.
Example C53_compose_case : (do c <- mult widths shift (one, Rot turn); apply widths c (meters 1, mkv 1 0 0)) = (do w <- apply widths (one, Rot turn) (meters 1, mkv 1 0 0); apply widths shift w).
Proof.
  apply C53_compose; [exact widths_proper|split; [apply meters_proper; lia|exact I]|split; [apply (one_proper widths widths_proper)|reflexivity]|apply meters_proper; lia|exact I|exact turn_normal|discriminate].
Qed.
Print Assumptions C53_apply.
Print Assumptions C53_rotation.
Print Assumptions C53_compose.
Print Assumptions C53_inverse.
Print Assumptions C53_inverse_right.
Print Assumptions C53_inverse_exists.
Print Assumptions C53_closed.
Print Assumptions C53_to_unit.
Print Assumptions C53_to_unit_which.
Print Assumptions C53_normalized_refuted.
Print Assumptions C53_affine_linear_refuted.
Print Assumptions C53_linear_unit_refuted.
Print Assumptions C53_inverse_none_refuted.
