(** Properties of means, extrema and reductions ignoring NaN (C48). *)
From Coq Require Import Reals Lra.
From Flocq Require Import Core BinarySingleNaN.
From Verif Require Import Base Map_Model Dims_Model Dims_Spec Dims_Proofs View_Model View_Spec View_Proofs Transform_Model Transform_Spec Float
  Accumulate_Spec Accumulate_Model Accumulate_Proofs Mask_Model Mask_Spec Mask_Proofs MaskFloat_Proofs NanReduce_Model NanReduce_Spec NanReduce_Proofs.
Open Scope Z_scope.

Lemma filter_length_le {A} (p : A -> bool) l : (length (filter p l) <= length l)%nat.
Proof. induction l as [|x l IH]; cbn [filter length]; [lia|]. destruct (p x); cbn [length]; lia. Qed.

(** ** NaN-ignoring reductions *)

(** C48. nansum, nanmax and nanmin of each row are the sum, max and min of the array of those of its elements that are not
    NaN. For nansum, no element may be infinite. *)
Theorem C48_nan : forall o p, nan_variant o p -> forall var dim n, well_formed var -> has (dd var) dim n ->
  exists r, reduce_f o var dim = Ok r /\ pairs (dd r) = without_dim (dd var) dim /\
    forall ix, inside (dd r) ix -> (o = RNansum -> Forall not_infinite (elements var dim n ix)) ->
      exists r', reduce_f p (line_of dim (not_nans (elements var dim n ix))) dim = Ok r' /\ pairs (dd r') = [] /\ forall jx, dv r ix = dv r' jx.
Proof.
  intros o p Hop var dim n Hv Hn. destruct (reduce_f_ok o var dim n Hv Hn) as (r & E & Hr & Hp & Hval). exists r. split; [exact E|]. split; [exact Hp|].
  intros ix Hix Hl. set (l := elements var dim n ix) in *.
  assert (Hd : dim <> InvalidDim).
  { intros ->. apply (proj2 (proj2 (proj2 (proj1 Hv)))). unfold has, pairs in Hn. apply in_combine_l in Hn. exact Hn. }
  destruct (reduce_f_ok p (line_of dim (not_nans l)) dim (zlen (not_nans l)) (line_wf dim _ Hd) (or_introl eq_refl)) as (r' & E' & Hr' & Hp' & Hval').
  exists r'. split; [exact E'|]. assert (Hp0 : pairs (dd r') = []).
  { rewrite Hp'. cbn. rewrite Z.eqb_refl. reflexivity. }
  split; [exact Hp0|]. intros jx. rewrite Hval by exact Hix. rewrite Hval'.
  - rewrite line_along. apply variant_fold; assumption.
  - intros k x Hk. unfold has in Hk. rewrite Hp0 in Hk. destruct Hk.
Qed.
Print Assumptions C48_nan.

Definition inf (s : bool) : f64 := B754_infinity s.
Definition one : f64 := f_of_Z 1.
Definition dim_x : Dim := 5.
Definition dim_y : Dim := 6.
(** (Doubles are compared without the proof that they are representable.) *)
Definition first (r : res (darr f64)) : option SpecFloat.spec_float := match r with Ok a => Some (B2SF (dv a (fun _ => 0))) | _ => None end.
Lemma first_ok r x : first r = Some (B2SF x) -> exists a, r = Ok a /\ dv a (fun _ => 0) = x.
Proof. destruct r as [a|e|]; try discriminate. intros E. injection E as E. exists a. split; [reflexivity|]. apply B2SF_inj. exact E. Qed.

(** With infinities: the sum of inf and -inf is NaN, and nansum starts anew from 0 when the intermediate result is NaN. The
    nansum of [inf, -inf, 1] is 1; there is no NaN in the input and its sum is NaN. *)
Theorem C48_nansum_refuted : exists l r s, not_nans l = l /\ reduce_f RNansum (line_of dim_x l) dim_x = Ok r /\ reduce_f RSum (line_of dim_x l) dim_x = Ok s /\
  dv r (fun _ => 0) = one /\ dv s (fun _ => 0) = B754_nan.
Proof.
  exists [inf false; inf true; one].
  destruct (first_ok (reduce_f RNansum (line_of dim_x [inf false; inf true; one]) dim_x) one) as (r & Er & Vr); [vm_compute; reflexivity|].
  destruct (first_ok (reduce_f RSum (line_of dim_x [inf false; inf true; one]) dim_x) B754_nan) as (s & Es & Vs); [vm_compute; reflexivity|].
  exists r, s. split; [reflexivity|]. split; [exact Er|]. split; [exact Es|]. split; assumption.
Qed.
Print Assumptions C48_nansum_refuted.

(** A case: rows with and without NaN. *)
Definition tab : darr f64 := mkd (mkmap [dim_y; dim_x] [2; 3])
  (fun ix => if (ix dim_x =? 1) && (ix dim_y =? 0) then B754_nan else f_of_Z (10 * ix dim_y + ix dim_x + 1)).
Lemma tab_wf : well_formed tab.
Proof.
  split; [apply (mk_wf [(dim_y, 2); (dim_x, 3)]); repeat constructor; cbn; intuition discriminate|]. intros jx jx' Hj. cbn [tab dv dd labels m_keys] in *.
  rewrite (Hj dim_x), (Hj dim_y) by (cbn; tauto). reflexivity.
Qed.
Definition rows (r : res (darr f64)) : option (list SpecFloat.spec_float) := match r with Ok a => Some (map (fun y => B2SF (dv a (fun _ => y))) [0; 1]) | _ => None end.
Definition sf (l : list f64) : option (list SpecFloat.spec_float) := Some (map (B2SF (emax := 1024)) l).
Example C48_nan_ex : rows (reduce_f RNansum tab dim_x) = sf [f_of_Z 4; f_of_Z 36] /\ rows (reduce_f RNanmax tab dim_x) = sf [f_of_Z 3; f_of_Z 13] /\
  rows (reduce_f RNanmin tab dim_x) = sf [f_of_Z 1; f_of_Z 11] /\ rows (reduce_f RSum tab dim_x) = sf [B754_nan; f_of_Z 36] /\
  has (dd tab) dim_x 3 /\ Forall not_infinite (elements tab dim_x 3 (fun _ => 0)).
Proof.
  split; [vm_compute; reflexivity|]. split; [vm_compute; reflexivity|]. split; [vm_compute; reflexivity|]. split; [vm_compute; reflexivity|].
  split; [right; left; reflexivity|]. unfold elements, along. change (zseq 0 (Z.to_nat 3)) with [0; 1; 2]. cbn [map].
  constructor; [left; vm_compute; reflexivity|]. constructor; [right; vm_compute; reflexivity|]. constructor; [left; vm_compute; reflexivity|constructor].
Qed.

(** ** Extrema *)

(** C48. max is NaN exactly if an element is NaN. Otherwise it is not below any element, and it is an element if some element
    is not -inf. Of no elements it is the lowest finite number. *)
Theorem C48_max : forall var dim n, well_formed var -> has (dd var) dim n ->
  exists r, reduce_f RMax var dim = Ok r /\ pairs (dd r) = without_dim (dd var) dim /\
    forall ix, inside (dd r) ix -> let l := elements var dim n ix in
      (is_nan (dv r ix) = true <-> exists x, In x l /\ is_nan x = true) /\
      (is_nan (dv r ix) = false -> (forall x, In x l -> fleb x (dv r ix) = true) /\
         ((exists x, In x l /\ x <> B754_infinity true) -> In (dv r ix) l) /\
         ((forall x, In x l -> x = B754_infinity true) -> dv r ix = f_lowest)).
Proof.
  intros var dim n Hv Hn. destruct (reduce_f_ok RMax var dim n Hv Hn) as (r & E & Hr & Hp & Hval). exists r. split; [exact E|]. split; [exact Hp|].
  intros ix Hix. cbv zeta. rewrite (Hval ix Hix). cbn [r_op r_init]. set (l := elements var dim n ix). split; [apply max_nan_iff; exact lowest_nan|].
  intros Hnan. assert (Hl : Forall (fun x => is_nan x = false) l).
  { apply Forall_forall. intros x Hx. destruct (is_nan x) eqn:Nx; [|reflexivity]. rewrite (proj2 (max_nan_iff l f_lowest lowest_nan)) in Hnan; [discriminate|eauto]. }
  destruct (max_fold l f_lowest lowest_nan Hl) as (M1 & M2 & M3 & M4). split; [exact M4|]. split.
  - intros (x & Hx & Hi). destruct M2 as [M2|M2]; [|exact M2]. rewrite M2. specialize (M4 x Hx). rewrite M2 in M4. rewrite <- (le_lowest x M4 Hi). exact Hx.
  - intros Hall. destruct M2 as [M2|M2]; [exact M2|]. apply Hall in M2. rewrite M2 in M3. exfalso. revert M3. vm_compute. discriminate.
Qed.
Print Assumptions C48_max.

Theorem C48_min : forall var dim n, well_formed var -> has (dd var) dim n ->
  exists r, reduce_f RMin var dim = Ok r /\ pairs (dd r) = without_dim (dd var) dim /\
    forall ix, inside (dd r) ix -> let l := elements var dim n ix in
      (is_nan (dv r ix) = true <-> exists x, In x l /\ is_nan x = true) /\
      (is_nan (dv r ix) = false -> (forall x, In x l -> fleb (dv r ix) x = true) /\
         ((exists x, In x l /\ x <> B754_infinity false) -> In (dv r ix) l) /\
         ((forall x, In x l -> x = B754_infinity false) -> dv r ix = f_max)).
Proof.
  intros var dim n Hv Hn. destruct (reduce_f_ok RMin var dim n Hv Hn) as (r & E & Hr & Hp & Hval). exists r. split; [exact E|]. split; [exact Hp|].
  intros ix Hix. cbv zeta. rewrite (Hval ix Hix). cbn [r_op r_init]. set (l := elements var dim n ix). split; [apply min_nan_iff; exact max_nan|].
  intros Hnan. assert (Hl : Forall (fun x => is_nan x = false) l).
  { apply Forall_forall. intros x Hx. destruct (is_nan x) eqn:Nx; [|reflexivity]. rewrite (proj2 (min_nan_iff l f_max max_nan)) in Hnan; [discriminate|eauto]. }
  destruct (min_fold l f_max max_nan Hl) as (M1 & M2 & M3 & M4). split; [exact M4|]. split.
  - intros (x & Hx & Hi). destruct M2 as [M2|M2]; [|exact M2]. rewrite M2. specialize (M4 x Hx). rewrite M2 in M4. rewrite <- (ge_max x M4 Hi). exact Hx.
  - intros Hall. destruct M2 as [M2|M2]; [exact M2|]. apply Hall in M2. rewrite M2 in M3. exfalso. revert M3. vm_compute. discriminate.
Qed.
Print Assumptions C48_min.

(** The extrema are not always elements: the max of [-inf] is the lowest finite number, the min of [inf] the largest. *)
Theorem C48_extrema_refuted : exists a b, reduce_f RMax (line_of dim_x [inf true]) dim_x = Ok a /\ dv a (fun _ => 0) = f_lowest /\ f_lowest <> inf true /\
  reduce_f RMin (line_of dim_x [inf false]) dim_x = Ok b /\ dv b (fun _ => 0) = f_max /\ f_max <> inf false.
Proof.
  destruct (first_ok (reduce_f RMax (line_of dim_x [inf true]) dim_x) f_lowest) as (a & Ea & Va); [vm_compute; reflexivity|].
  destruct (first_ok (reduce_f RMin (line_of dim_x [inf false]) dim_x) f_max) as (b & Eb & Vb); [vm_compute; reflexivity|].
  exists a, b. split; [exact Ea|]. split; [exact Va|]. split; [intros E; apply (f_equal is_finite) in E; revert E; vm_compute; discriminate|]. split; [exact Eb|]. split; [exact Vb|].
  intros E. apply (f_equal is_finite) in E. revert E. vm_compute. discriminate.
Qed.
Print Assumptions C48_extrema_refuted.

Example C48_max_ex : rows (reduce_f RMax tab dim_x) = sf [B754_nan; f_of_Z 13] /\ rows (reduce_f RMin tab dim_x) = sf [B754_nan; f_of_Z 11] /\
  first (reduce_f RMax (line_of dim_x [inf true; one; inf true]) dim_x) = Some (B2SF (one : f64)) /\ first (reduce_f RMin (line_of dim_x []) dim_x) = Some (B2SF (f_max : f64)).
Proof. split; [|split; [|split]]; vm_compute; reflexivity. Qed.

(** ** Means *)

(** [q] is the quotient of the double [s] and the number [n], up to rounding. *)
Definition quotient (q s : f64) (n : Z) : Prop :=
  (is_finite s = false -> q = s) /\
  (is_finite s = true -> is_finite q = true /\
     (Rabs (val q - val s / IZR n) <= 3 * bpow radix2 (-53) * Rabs (val s / IZR n) + bpow radix2 (-1074))%R).
Lemma norm_quotient s n : 1 <= n <= 2 ^ 53 -> quotient (norm_f s n) s n.
Proof. intros Hn. split; [apply norm_f_special|apply norm_f_val]; exact Hn. Qed.

(** C48. The mean is the sum (in order) over the number of elements, up to an error of three half units in the last place. *)
Theorem C48_mean : forall var dim n, well_formed var -> has (dd var) dim n -> 1 <= n <= 2 ^ 53 ->
  exists r, mean_f var dim = Ok r /\ pairs (dd r) = without_dim (dd var) dim /\
    forall ix, inside (dd r) ix -> quotient (dv r ix) (sum_f (elements var dim n ix)) n.
Proof.
  intros var dim n Hv Hn Hb. destruct (mean_f_ok var dim n Hv Hn) as (r & E & Hr & Hp & Hval). exists r. split; [exact E|]. split; [exact Hp|].
  intros ix Hix. rewrite Hval by exact Hix. replace (zlen (elements var dim n ix)) with n; [apply norm_quotient; exact Hb|].
  unfold elements, along, zlen, zseq. rewrite !map_length, seq_length. lia.
Qed.
Print Assumptions C48_mean.

(** It is not the rounded quotient: the mean of [5, 0, 0] is 5 * (1 / 3), the double above 5 / 3. *)
Theorem C48_mean_refuted : exists l r, mean_f (line_of dim_x l) dim_x = Ok r /\ dv r (fun _ => 0) <> fdiv (sum_f l) (f_of_Z (zlen l)).
Proof.
  exists [f_of_Z 5; f_of_Z 0; f_of_Z 0].
  destruct (first_ok (mean_f (line_of dim_x [f_of_Z 5; f_of_Z 0; f_of_Z 0]) dim_x) (fmul (f_of_Z 5) (fdiv one (f_of_Z 3)))) as (r & E & V); [vm_compute; reflexivity|].
  exists r. split; [exact E|]. rewrite V. intros E'. apply (f_equal B2SF) in E'. revert E'. vm_compute. discriminate.
Qed.
Print Assumptions C48_mean_refuted.

(** The mean of no elements is NaN. *)
Theorem C48_mean_empty : forall var dim, well_formed var -> has (dd var) dim 0 ->
  exists r, mean_f var dim = Ok r /\ forall ix, inside (dd r) ix -> dv r ix = B754_nan.
Proof.
  intros var dim Hv Hn. destruct (mean_f_ok var dim 0 Hv Hn) as (r & E & Hr & Hp & Hval). exists r. split; [exact E|].
  intros ix Hix. rewrite Hval by exact Hix. vm_compute. reflexivity.
Qed.
Print Assumptions C48_mean_empty.

Example C48_mean_ex : rows (mean_f tab dim_x) = sf [B754_nan; f_of_Z 12] /\ first (mean_f (line_of dim_x []) dim_x) = Some (B2SF (B754_nan : f64)).
Proof. split; vm_compute; reflexivity. Qed.

(** C48. nanmean: the sum of the elements that are not NaN over their number, if no element is infinite. NaN if there are
    none. *)
Theorem C48_nanmean : forall var dim n, well_formed var -> has (dd var) dim n -> n <= 2 ^ 53 ->
  exists r, nanmean_f var dim = Ok r /\ pairs (dd r) = without_dim (dd var) dim /\
    forall ix, inside (dd r) ix -> Forall not_infinite (elements var dim n ix) -> let l := not_nans (elements var dim n ix) in
      (l <> [] -> quotient (dv r ix) (sum_f l) (zlen l)) /\ (l = [] -> dv r ix = B754_nan).
Proof.
  intros var dim n Hv Hn Hb. destruct (nanmean_f_ok var dim n Hv Hn) as (r & E & Hr & Hp & Hval). exists r. split; [exact E|]. split; [exact Hp|].
  intros ix Hix Hl. cbv zeta. rewrite (Hval ix Hix Hl). split; [|intros ->; vm_compute; reflexivity].
  intros Hne. apply norm_quotient. pose proof (extent_pos _ _ _ (proj1 Hv) Hn) as Hpos.
  assert (Hlen : (length (not_nans (elements var dim n ix)) <= Z.to_nat n)%nat).
  { unfold not_nans. eapply Nat.le_trans; [apply filter_length_le|]. unfold elements, along, zseq. rewrite !map_length, seq_length. lia. }
  unfold zlen. destruct (not_nans (elements var dim n ix)); [contradiction|]. cbn [length] in *. lia.
Qed.
Print Assumptions C48_nanmean.

(** C48. With masks: the same of the unmasked elements. *)
Theorem C48_nanmean_masked : forall var dim n l, well_formed var -> has (dd var) dim n -> n <= 2 ^ 53 -> masks_fine l -> applicable l dim var ->
  exists r, nanmean_masked var dim l = Ok r /\ (forall k x, has (dd r) k x <-> has (dd var) k x /\ k <> dim) /\
    forall ix, inside (dd r) ix -> let e := map (dv var) (unmasked l dim (along ix dim n)) in Forall not_infinite e ->
      (not_nans e <> [] -> quotient (dv r ix) (sum_f (not_nans e)) (zlen (not_nans e))) /\ (not_nans e = [] -> dv r ix = B754_nan).
Proof.
  intros var dim n l Hv Hn Hb Hf Happ. destruct (nanmean_masked_ok var dim n l Hv Hn (proj2 Hf) Happ) as (r & E & Hr & Hp & Hval). exists r. split; [exact E|]. split; [exact Hp|].
  intros ix Hix. cbv zeta. intros Hl. rewrite (Hval ix Hix Hl). set (e := map (dv var) (unmasked l dim (along ix dim n))) in *. split; [|intros ->; vm_compute; reflexivity].
  intros Hne. apply norm_quotient. pose proof (extent_pos _ _ _ (proj1 Hv) Hn) as Hpos.
  assert (Hlen : (length (not_nans e) <= Z.to_nat n)%nat).
  { unfold not_nans, e, unmasked. eapply Nat.le_trans; [apply filter_length_le|]. rewrite map_length. eapply Nat.le_trans; [apply filter_length_le|]. unfold along, zseq. rewrite !map_length, seq_length. lia. }
  unfold zlen. destruct (not_nans e); [contradiction|]. cbn [length] in *. lia.
Qed.
Print Assumptions C48_nanmean_masked.

(** With infinities nanmean depends on whether there is a mask, even if that masks nothing: without masks it counts finite
    elements, with masks those that are not NaN. nanmean of [inf, 1] is inf; of [inf, -inf, 1, 1] it is 2 / 2 or 2 / 4. *)
Definition bmask (n : Z) : mask := mkmask (mkd (mkmap [dim_x] [n]) (fun _ => false)) true true false.
Theorem C48_nanmean_infinite_refuted : exists l m r s, masks_fine [(0, m)] /\ applicable [(0, m)] dim_x (line_of dim_x l) /\
  (forall ix, dv (k_arr m) ix = false) /\
  nanmean_f (line_of dim_x l) dim_x = Ok r /\ nanmean_masked (line_of dim_x l) dim_x [(0, m)] = Ok s /\
  dv r (fun _ => 0) = one /\ dv s (fun _ => 0) = fdiv one (f_of_Z 2).
Proof.
  exists [inf false; inf true; one; one], (bmask 4).
  destruct (first_ok (nanmean_f (line_of dim_x [inf false; inf true; one; one]) dim_x) one) as (r & Er & Vr); [vm_compute; reflexivity|].
  destruct (first_ok (nanmean_masked (line_of dim_x [inf false; inf true; one; one]) dim_x [(0, bmask 4)]) (fdiv one (f_of_Z 2))) as (s & Es & Vs); [vm_compute; reflexivity|].
  exists r, s. split.
  - split; [repeat constructor; cbn; tauto|]. intros k m [Ek|[]]. injection Ek as <- <-. split; [apply (mk_wf [(dim_x, 4)]); repeat constructor; cbn; intuition discriminate|]. intros; reflexivity.
  - split; [intros k m [Ek|[]] _; injection Ek as <- <-; split; [split; reflexivity|]; intros d n Hh; exact Hh|]. split; [reflexivity|]. auto.
Qed.
Print Assumptions C48_nanmean_infinite_refuted.

Example C48_nanmean_ex : rows (nanmean_f tab dim_x) = sf [f_of_Z 2; f_of_Z 12] /\
  rows (nanmean_masked tab dim_x [(0, mkmask (mkd (mkmap [dim_x] [3]) (fun ix => ix dim_x =? 0)) true true false)]) = sf [f_of_Z 3; fdiv (f_of_Z 25) (f_of_Z 2)].
Proof. split; vm_compute; reflexivity. Qed.
